From Verif Require Import Base Arr TsortModel TsortSpec TsortProofs TsortTop VectorModel VectorSpec.

Lemma bsearch_loop_spec {A} (a : list A) (cmp : A -> Z) (Ho : ordered_for a cmp) : forall fuel base lim,
  (lim < fuel)%nat -> (base + lim <= length a)%nat ->
  (forall i e, (i < base)%nat -> nth_error a i = Some e -> 0 < cmp e) ->
  (forall i e, (base + lim <= i)%nat -> nth_error a i = Some e -> cmp e < 0) ->
  exists found pos, bsearch_loop fuel a cmp base lim = Ok (found, pos) /\ search_answer a cmp found pos.
Proof.
  induction fuel as [|f IH]; intros base lim Hf Hl H1 H2; [lia|].
  destruct lim as [|l0].
  - exists false, base. split; [reflexivity|]. unfold search_answer. split; [lia|]. split; [exact H1|].
    intros i e Hi. apply H2. lia.
  - cbn [bsearch_loop]. set (lim := S l0) in *. cbv zeta. set (part := (base + lim / 2)%nat).
    assert (Hp : (base <= part < base + lim)%nat) by (unfold part, lim; lia).
    destruct (aget_ok a part) as (e & -> & He); [lia|]. cbn [bindr].
    destruct (Z.eqb_spec (cmp e) 0) as [E|E].
    + exists true, part. split; [reflexivity|]. exists e. auto.
    + destruct (Z.ltb_spec 0 (cmp e)) as [E2|E2].
      * apply IH; [unfold lim in *; lia|unfold part, lim in *; lia| |].
        -- intros i x Hi Hx. destruct (Nat.eq_dec i part) as [->|N]; [congruence|].
           destruct (Z_lt_ge_dec 0 (cmp x)) as [|G]; [assumption|exfalso].
           destruct (Ho i part x e ltac:(lia) Hx He) as [Ha _]. lia.
        -- intros i x Hi. apply H2. unfold part, lim in *. lia.
      * apply IH; [unfold lim in *; lia|unfold part, lim in *; lia|exact H1|].
        intros i x Hi Hx. fold part in Hi. destruct (Nat.eq_dec i part) as [->|N]; [assert (x = e) by congruence; subst; lia|].
        destruct (Ho part i e x ltac:(lia) He Hx) as [_ Hb]. lia.
Qed.

Lemma bsearch_spec {A} (a : list A) (cmp : A -> Z) : ordered_for a cmp ->
  exists found pos, bsearch a cmp = Ok (found, pos) /\ search_answer a cmp found pos.
Proof.
  intros Ho. unfold bsearch. apply bsearch_loop_spec; auto; try lia.
  intros i e Hi He. assert (i < length a)%nat by (apply nth_error_Some; congruence). lia.
Qed.

Section P.
  Context {A : Type} (cmp : A -> A -> Z) (Hc : cmp_ok cmp).

  Lemma sorted_ordered l k : sorted cmp l -> ordered_for l (cmp k).
  Proof.
    intros Hs i j x y Hij Hx Hy.
    assert (Hxy : cmp x y <= 0) by (apply (proj1 (sorted_nth cmp l) Hs i j); auto).
    split; intros H; [apply (cmp_trans cmp Hc k x y)|apply (cmp_lt_le_trans cmp Hc k x y)]; auto.
  Qed.

  Lemma stable_sort_refl l : sorted cmp l -> is_stable_sort cmp l l.
  Proof. intros H. split; [exact H|]. split; [apply Permutation_refl|]. intros x. reflexivity. Qed.

  Definition vinv (v : vec A) : Prop := flag v = true -> sorted cmp (items v).

  Lemma short_sorted (l : list A) : (length l <= 1)%nat -> sorted cmp l.
  Proof. destruct l as [|x [|y l]]; cbn; intros; [exact I|split; [intros y []|exact I]|lia]. Qed.

  Lemma vsort_spec v v' : vinv v -> vsort cmp v = Ok v' -> sorted cmp (items v') /\ flag v' = true /\ is_stable_sort cmp (items v) (items v').
  Proof.
    unfold vsort. intros Hi H. destruct (flag v) eqn:F.
    - injection H as <-. split; [apply Hi, F|]. split; [exact F|]. apply stable_sort_refl, Hi, F.
    - destruct (Nat.ltb_spec 1 (length (items v))).
      + destruct (tsort_spec cmp Hc (items v)) as [(d & Hd & Hs & Hp & Hst)|[Hu _]].
        * rewrite Hd in H. cbn in H. injection H as <-. cbn. split; [exact Hs|]. split; [reflexivity|]. exact (conj Hs (conj Hp Hst)).
        * rewrite Hu in H. discriminate.
      + injection H as <-. cbn. pose proof (short_sorted (items v) H0) as Hs. split; [exact Hs|]. split; [reflexivity|]. apply stable_sort_refl, Hs.
  Qed.

  Lemma search_split l k found pos : sorted cmp l -> search_answer l (cmp k) found pos ->
    (pos <= length l)%nat /\ sorted cmp (firstn pos l ++ k :: skipn pos l).
  Proof.
    intros Hs Ha.
    assert (Hp : (pos <= length l)%nat /\ (forall i e, (i < pos)%nat -> nth_error l i = Some e -> cmp e k <= 0) /\
                 (forall i e, (pos <= i)%nat -> nth_error l i = Some e -> cmp k e <= 0)).
    { destruct found; cbn in Ha.
      - destruct Ha as (e & He & E). assert (pos < length l)%nat by (apply nth_error_Some; congruence).
        split; [lia|]. split.
        + intros i x Hi Hx. apply (cmp_trans cmp Hc x e k).
          * apply (proj1 (sorted_nth cmp l) Hs i pos); auto.
          * rewrite (proj1 (cmp_eq_sym cmp Hc k e) E). lia.
        + intros i x Hi Hx. destruct (Nat.eq_dec i pos) as [->|N]; [assert (x = e) by congruence; subst; lia|].
          apply (cmp_trans cmp Hc k e x); [lia|]. apply (proj1 (sorted_nth cmp l) Hs pos i); auto. lia.
      - destruct Ha as (H1 & H2 & H3). split; [exact H1|]. split.
        + intros i e Hi He. specialize (H2 i e Hi He). apply (cmp_lt_gt cmp Hc) in H2. lia.
        + intros i e Hi He. specialize (H3 i e Hi He). lia. }
    destruct Hp as (H1 & H2 & H3). split; [exact H1|].
    assert (Hl : length (firstn pos l) = pos) by (rewrite firstn_length; lia).
    rewrite <- (firstn_skipn pos l) in Hs. apply sorted_app in Hs. destruct Hs as (Ha1 & Ha2 & Ha3).
    assert (Hf : forall x, In x (firstn pos l) -> cmp x k <= 0).
    { intros x Hx. apply In_nth_error in Hx. destruct Hx as (i & Hi).
      assert (i < length (firstn pos l))%nat by (apply nth_error_Some; congruence).
      apply (H2 i); [lia|]. rewrite <- (firstn_skipn pos l). rewrite nth_error_app1 by lia. exact Hi. }
    assert (Hg : forall x, In x (skipn pos l) -> cmp k x <= 0).
    { intros x Hx. apply In_nth_error in Hx. destruct Hx as (i & Hi).
      apply (H3 (pos + i)%nat); [lia|]. rewrite <- (firstn_skipn pos l). rewrite nth_error_app2 by lia.
      rewrite Hl. replace (pos + i - pos)%nat with i by lia. exact Hi. }
    apply sorted_app. split; [exact Ha1|]. split; [split; [exact Hg|exact Ha2]|].
    intros x y Hx [<-|Hy]; auto.
  Qed.

  Lemma sorted_drop a b c : sorted cmp (a ++ b ++ c) -> sorted cmp (a ++ c).
  Proof.
    intros H. apply sorted_app in H. destruct H as (H1 & H2 & H3). apply sorted_app in H2. destruct H2 as (H4 & H5 & H6).
    apply sorted_app. split; [exact H1|]. split; [exact H5|]. intros x y Hx Hy. apply H3; [exact Hx|]. apply in_or_app. auto.
  Qed.
  Lemma sorted_filter (p : A -> bool) l : sorted cmp l -> sorted cmp (filter p l).
  Proof.
    induction l as [|x l IH]; cbn; [auto|]. intros [H1 H2]. destruct (p x); [|apply IH, H2].
    cbn. split; [|apply IH, H2]. intros y Hy. apply filter_In in Hy. apply H1, Hy.
  Qed.

  (** *** remove_matching *)
  Lemma rm_loop_spec p : forall r k junk : list A, exists junk',
    rm_loop (length r) (k ++ junk ++ r) p (length k) (length k + length junk) =
      Ok ((k ++ filter (fun x => negb (p x)) r) ++ junk', length (k ++ filter (fun x => negb (p x)) r)).
  Proof.
    induction r as [|x r IH]; intros k junk; cbn [length rm_loop].
    - exists junk. cbn. rewrite !app_nil_r. reflexivity.
    - rewrite app_assoc. rewrite aget_mid by (rewrite app_length; reflexivity). cbn [bindr].
      rewrite <- app_assoc.
      assert (exists junk1, aset (k ++ junk ++ x :: r) (length k) x = Ok (k ++ x :: junk1 ++ r) /\ length junk1 = length junk) as (j1 & -> & Hj).
      { destruct junk as [|j0 junk]; cbn [app].
        - exists []. rewrite aset_mid by reflexivity. split; reflexivity.
        - exists (junk ++ [x]). rewrite aset_mid by reflexivity. rewrite <- app_assoc. split; [reflexivity|]. rewrite app_length. cbn. lia. }
      cbn [bindr]. rewrite aget_mid by reflexivity. cbn [bindr]. cbn [filter].
      destruct (p x) eqn:E; cbn [negb].
      + destruct (IH k (x :: j1)) as (junk' & H). exists junk'. rewrite <- H. cbn [app length]. rewrite Hj. f_equal. lia.
      + destruct (IH (k ++ [x]) j1) as (junk' & H). exists junk'. rewrite <- !app_assoc in H. cbn [app] in H. rewrite <- !app_assoc. cbn [app].
        rewrite <- H. rewrite !app_length. cbn [length].
        replace (length k + 1)%nat with (S (length k)) by lia. replace (S (length k) + length j1)%nat with (S (length k + length junk)) by lia. reflexivity.
  Qed.
  Lemma remove_matching_spec (v : vec A) p : vremove_matching v p = Ok (mkvec (filter (fun x => negb (p x)) (items v)) (flag v)).
  Proof.
    unfold vremove_matching. destruct (rm_loop_spec p (items v) [] []) as (junk & H). cbn [app length Nat.add] in H. rewrite H. cbn [bindr].
    rewrite firstn_app, firstn_all, Nat.sub_diag. cbn. rewrite app_nil_r. reflexivity.
  Qed.

  (** *** uniq *)
  Fixpoint uniqf (x : A) (r : list A) : list A :=
    match r with
    | [] => [x]
    | y :: r' => if cmp x y =? 0 then uniqf y r' else x :: uniqf y r'
    end.

  Lemma uniq_loop_spec : forall (r k : list A) (x : A) (junk : list A), exists junk',
    uniq_loop cmp (length r) (k ++ x :: junk ++ r) (length k) (length k + 1 + length junk) =
      Ok ((k ++ uniqf x r) ++ junk', (length (k ++ uniqf x r) - 1)%nat).
  Proof.
    induction r as [|y r IH]; intros k x junk; cbn [length uniq_loop].
    - exists junk. cbn. rewrite app_nil_r, <- app_assoc. cbn. rewrite app_length. cbn. f_equal. f_equal. lia.
    - rewrite aget_mid by reflexivity. cbn [bindr].
      assert (E1 : aget (k ++ x :: junk ++ y :: r) (length k + 1 + length junk) = Ok y).
      { replace (k ++ x :: junk ++ y :: r) with ((k ++ x :: junk) ++ y :: r) by (rewrite <- app_assoc; reflexivity).
        apply aget_mid. rewrite app_length. cbn. lia. }
      rewrite E1. cbn [bindr uniqf].
      destruct (Z.eqb_spec (cmp x y) 0) as [E|E].
      + rewrite aset_mid by reflexivity. cbn [bindr].
        destruct (IH k y (junk ++ [y])) as (junk' & H). exists junk'. rewrite <- H.
        rewrite <- app_assoc. cbn [app]. rewrite app_length. cbn [length]. f_equal. lia.
      + replace (k ++ x :: junk ++ y :: r) with ((k ++ [x]) ++ junk ++ y :: r) by (rewrite <- app_assoc; reflexivity).
        assert (exists j1, aset ((k ++ [x]) ++ junk ++ y :: r) (S (length k)) y = Ok ((k ++ [x]) ++ y :: j1 ++ r) /\ length j1 = length junk) as (j1 & -> & Hj).
        { assert (El : S (length k) = length (k ++ [x])) by (rewrite app_length; cbn; lia). rewrite El.
          destruct junk as [|j0 junk]; cbn [app].
          - exists []. rewrite aset_mid by reflexivity. split; reflexivity.
          - exists (junk ++ [y]). rewrite aset_mid by reflexivity. rewrite <- (app_assoc junk). split; [reflexivity|]. rewrite app_length. cbn. lia. }
        cbn [bindr]. destruct (IH (k ++ [x]) y j1) as (junk' & H). exists junk'. rewrite <- !app_assoc in H. cbn [app] in H.
        rewrite <- !app_assoc. cbn [app]. rewrite <- H. rewrite !app_length. cbn [length].
        replace (S (length k + 1 + length junk)) with (length k + 1 + 1 + length j1)%nat by lia.
        replace (length k + 1)%nat with (S (length k)) by lia. reflexivity.
  Qed.

  Lemma uniqf_props : forall r x, sorted cmp (x :: r) ->
    sorted cmp (uniqf x r) /\ incl (uniqf x r) (x :: r) /\ (forall z, In z (uniqf x r) -> cmp x z <= 0) /\
    forall z, In z (x :: r) -> exists e, filter (fun y => cmp z y =? 0) (uniqf x r) = [e] /\
       exists pre, filter (fun y => cmp z y =? 0) (x :: r) = pre ++ [e].
  Proof.
    induction r as [|y r IH]; intros x Hs.
    - cbn [uniqf]. split; [exact Hs|]. split; [intros u Hu; exact Hu|]. split.
      + intros z [<-|[]]. rewrite (cmp_refl cmp Hc). lia.
      + intros z [<-|[]]. cbn. rewrite (cmp_refl cmp Hc). exists x. cbn. split; [reflexivity|]. exists []. reflexivity.
    - destruct Hs as [Hx Hs]. destruct (IH y Hs) as (H1 & H2 & H3 & H4). cbn [uniqf].
      destruct (Z.eqb_spec (cmp x y) 0) as [E|E].
      + split; [exact H1|]. split; [intros u Hu; right; apply H2, Hu|]. split.
        { intros z Hz. apply (cmp_trans cmp Hc x y z); [lia|auto]. }
        intros z Hz.
        assert (Hz' : forall z, In z (y :: r) -> exists e, filter (fun y0 => cmp z y0 =? 0) (uniqf y r) = [e] /\ (exists pre, filter (fun y0 => cmp z y0 =? 0) (x :: y :: r) = pre ++ [e])).
        { clear z Hz. intros z Hz. destruct (H4 z Hz) as (e & He & pre & Hpre). exists e. split; [exact He|].
          set (L := y :: r) in *. cbn [filter]. destruct (cmp z x =? 0); [exists (x :: pre); rewrite Hpre; reflexivity|exists pre; exact Hpre]. }
        destruct Hz as [<-|Hz]; [|apply Hz', Hz].
        assert (Heq : forall l : list A, filter (fun y0 => cmp x y0 =? 0) l = filter (fun y0 => cmp y y0 =? 0) l).
        { intros l. apply filter_ext. intros u. destruct (Z.eqb_spec (cmp x u) 0) as [E1|E1], (Z.eqb_spec (cmp y u) 0) as [E2|E2]; auto; exfalso.
          - apply E2. apply (cmp_eq_trans cmp Hc y x u); [apply (cmp_eq_sym cmp Hc); exact E|exact E1].
          - apply E1. apply (cmp_eq_trans cmp Hc x y u); assumption. }
        rewrite !Heq. apply Hz'. left; reflexivity.
      + assert (Hlt : forall z, In z (y :: r) -> cmp x z < 0).
        { intros z Hz. assert (cmp x y < 0) by (specialize (Hx y (or_introl eq_refl)); lia).
          apply (cmp_lt_le_trans cmp Hc x y z); [assumption|]. destruct Hz as [<-|Hz]; [rewrite (cmp_refl cmp Hc); lia|]. apply Hs, Hz. }
        split; [split; [intros z Hz; apply Hx, H2, Hz|exact H1]|].
        split; [intros u [<-|Hu]; [left; reflexivity|right; apply H2, Hu]|]. split.
        { intros z [<-|Hz]; [rewrite (cmp_refl cmp Hc); lia|]. specialize (Hlt z (H2 z Hz)). lia. }
        intros z Hz. set (L := y :: r) in *. cbn [filter]. destruct Hz as [<-|Hz].
        * rewrite (cmp_refl cmp Hc), Z.eqb_refl.
          rewrite (filter_none (fun y0 => cmp x y0 =? 0) L) by (intros u Hu; specialize (Hlt u Hu); lia).
          rewrite (filter_none (fun y0 => cmp x y0 =? 0) (uniqf y r)) by (intros u Hu; specialize (Hlt u (H2 u Hu)); lia).
          exists x. split; [reflexivity|]. exists []. reflexivity.
        * specialize (Hlt z Hz). apply (cmp_lt_gt cmp Hc) in Hlt.
          destruct (Z.eqb_spec (cmp z x) 0); [lia|]. apply H4, Hz.
  Qed.


  Lemma vuniq_spec v v' : vinv v -> vuniq cmp v = Ok v' -> vinv v' /\ step_spec cmp OUniq (items v) (items v').
  Proof.
    intros Hi H. unfold vuniq in H. destruct (Nat.leb_spec (length (items v)) 1) as [E|E].
    - injection H as <-. split; [exact Hi|]. left. auto.
    - destruct (vsort cmp v) as [v1| | |] eqn:Es; try discriminate. cbn [bindr] in H.
      destruct (vsort_spec v v1 Hi Es) as (Hs & Hf & Hss & Hp & Hst).
      destruct (items v1) as [|x r] eqn:El.
      { apply Permutation_length in Hp. cbn in Hp. lia. }
      destruct (uniq_loop_spec r [] x []) as (junk & Hu). cbn [app length Nat.add] in Hu.
      destruct (uniqf_props r x Hs) as (H1 & H2 & H3 & H4).
      assert (Hlu : (1 <= length (uniqf x r) <= S (length r))%nat).
      { clear. revert x. induction r as [|y r IH]; intros x; cbn; [lia|]. specialize (IH y). destruct (cmp x y =? 0); cbn; lia. }
      replace (length (x :: r) - 1)%nat with (length r) in H by (cbn; lia). rewrite Hu in H. cbn [bindr] in H.
      assert (Ef : firstn (length (x :: r) - (length (x :: r) - (length (uniqf x r) - 1) - 1)) (uniqf x r ++ junk) = uniqf x r).
      { replace (length (x :: r) - (length (x :: r) - (length (uniqf x r) - 1) - 1))%nat with (length (uniqf x r)) by (cbn [length]; lia).
        rewrite firstn_app, firstn_all, Nat.sub_diag. cbn. rewrite app_nil_r. reflexivity. }
      rewrite Ef in H. injection H as <-. cbn [items].
      split; [intros _; exact H1|]. right. split.
      + split; [exact H1|]. intros z Hz.
        destruct (H4 z (Permutation_in _ Hp Hz)) as (e & He & pre & Hpre). exists e. split; [exact He|]. exists pre.
        rewrite <- Hst. exact Hpre.
      + intros u Hu'. apply (Permutation_in _ (Permutation_sym Hp)). apply H2, Hu'.
  Qed.

  (** *** one operation *)
  Inductive answer : Type := ANone | ASearch (found : bool) (pos : nat) | ACode (c : Z).

  Definition vstep (v : vec A) (o : vop A) : res (vec A * answer) :=
    match o with
    | OInsert x => Ok (vinsert v x, ANone)
    | OInsertSorted x d => do (c, v') <- vinsert_sorted cmp v x d ;; Ok (v', ACode c)
    | OSort => do v' <- vsort cmp v ;; Ok (v', ANone)
    | OSearch k => do (f, p, v') <- vbsearch cmp v (cmp k) ;; Ok (v', ASearch f p)
    | ORemove i => let (c, v') := vremove v i in Ok (v', ACode c)
    | OPop => Ok (vpop v, ANone)
    | OUniq => do v' <- vuniq cmp v ;; Ok (v', ANone)
    | ORemoveMatching p => do v' <- vremove_matching v p ;; Ok (v', ANone)
    | OClear => Ok (vclear v, ANone)
    | ORemoveRange i n => match vremove_range v i n with Some v' => Ok (v', ACode 0) | None => Ok (v, ACode (-1)) end
    end.

  Definition answer_ok (o : vop A) (l' : list A) (a : answer) : Prop :=
    match o, a with
    | OSearch k, ASearch f p => search_answer l' (cmp k) f p
    | OSearch _, _ => False
    | _, _ => True
    end.

  Lemma vstep_spec v o v' a : vinv v -> vstep v o = Ok (v', a) ->
    vinv v' /\ step_spec cmp o (items v) (items v') /\ answer_ok o (items v') a.
  Proof.
    intros Hi H. destruct o as [x|x d| |k|i| | |p| |i n]; cbn [vstep] in H.
    - injection H as <- <-. cbn. split; [|auto]. intros F. cbn in F. apply short_sorted. cbn. apply Nat.leb_le in F. exact F.
    - unfold vinsert_sorted in H. destruct (vsort cmp v) as [v1| | |] eqn:Es; try discriminate. cbn [bindr] in H.
      destruct (vsort_spec v v1 Hi Es) as (Hs & Hf & Hss).
      destruct (bsearch_spec (items v1) (cmp x) (sorted_ordered _ x Hs)) as (found & pos & Hb & Ha). rewrite Hb in H. cbn [bindr] in H.
      destruct (search_split _ _ _ _ Hs Ha) as (Hp & Hins).
      assert (Hgo : forall r : Z, ((0 <= r) \/ exists f old, d = Some f /\ In old (items v) /\ cmp x old = 0 /\ f old x = r) ->
         bindr (if r <? 0 then Ok (r, v1) else Ok (0, mkvec (firstn pos (items v1) ++ x :: skipn pos (items v1)) (flag v1))) (fun '(c, v'0) => Ok (v'0, ACode c)) = Ok (v', a) ->
         vinv v' /\ step_spec cmp (OInsertSorted x d) (items v) (items v') /\ answer_ok (OInsertSorted x d) (items v') a).
      { intros r Hr Hq. destruct (Z.ltb_spec r 0); cbn in Hq; injection Hq as <- <-.
        - split; [intros _; exact Hs|]. split; [|exact I]. exists (items v1). split; [right; exact Hss|]. split; [exact Hs|]. right. split; [reflexivity|].
          destruct Hr as [Hr|(f & old & H1 & H2 & H3 & H4)]; [lia|]. exists f, old. split; [exact H1|]. split; [exact H2|]. split; [exact H3|lia].
        - split; [intros _; exact Hins|]. split; [|exact I]. exists (items v1). split; [right; exact Hss|]. split; [exact Hs|]. left. cbn. split; [exact Hins|].
          exists (firstn pos (items v1)), (skipn pos (items v1)). split; [symmetry; apply firstn_skipn|reflexivity]. }
      destruct found; [destruct d as [f|]|].
      + destruct Ha as (e & He & Ee). rewrite (aget_some _ _ _ He) in H. cbn [bindr] in H. apply (Hgo (f e x)); [|exact H].
        right. exists f, e. split; [reflexivity|]. split; [|auto]. destruct Hss as (_ & Hpm & _). apply (Permutation_in _ (Permutation_sym Hpm)). eapply nth_error_In, He.
      + cbn [bindr] in H. apply (Hgo 0); [left; lia|exact H].
      + cbn [bindr] in H. apply (Hgo 0); [left; lia|exact H].
    - destruct (vsort cmp v) as [v1| | |] eqn:Es; try discriminate. cbn in H. injection H as <- <-.
      destruct (vsort_spec v v1 Hi Es) as (Hs & Hf & Hss). split; [intros _; exact Hs|]. split; [|exact I]. split; [exact Hs|right; exact Hss].
    - unfold vbsearch in H. destruct (vsort cmp v) as [v1| | |] eqn:Es; try discriminate. cbn [bindr] in H.
      destruct (vsort_spec v v1 Hi Es) as (Hs & Hf & Hss).
      destruct (bsearch_spec (items v1) (cmp k) (sorted_ordered _ k Hs)) as (found & pos & Hb & Ha). rewrite Hb in H. cbn in H. injection H as <- <-.
      split; [intros _; exact Hs|]. split; [|exact Ha]. split; [exact Hs|right; exact Hss].
    - unfold vremove in H. destruct (Nat.leb_spec (length (items v)) i) as [E|E]; injection H as <- <-.
      + split; [exact Hi|]. split; [|exact I]. right. auto.
      + cbn [items flag]. destruct (nth_error (items v) i) as [x|] eqn:Ex; [|apply nth_error_None in Ex; lia].
        assert (El : items v = firstn i (items v) ++ x :: skipn (i + 1) (items v)).
        { rewrite <- (firstn_skipn i (items v)) at 1. f_equal. rewrite Nat.add_comm. clear - Ex. revert i Ex. induction (items v) as [|y l IH]; intros [|i] Ex; try discriminate; cbn in *.
          - congruence. - apply IH, Ex. }
        split.
        * intros F. cbn in F |- *. specialize (Hi F). rewrite El in Hi. apply (sorted_drop _ [x]). exact Hi.
        * split; [|exact I]. left. exists (firstn i (items v)), x, (skipn (i + 1) (items v)). split; [exact El|]. split; [rewrite firstn_length; lia|reflexivity].
    - injection H as <- <-. destruct v as [l0 fl]. unfold vpop, vinv in *. cbn [items flag] in *.
      destruct l0 as [|x l _] using rev_ind.
      + split; [intros _; exact I|]. split; [|exact I]. right. auto.
      + rewrite app_length. cbn [length]. replace (length l + 1 - 1)%nat with (length l) by lia.
        rewrite firstn_app, firstn_all, Nat.sub_diag. cbn [firstn]. rewrite app_nil_r.
        split; [intros F; specialize (Hi F); apply sorted_app in Hi; apply Hi|]. split; [left; exists x; reflexivity|exact I].
    - destruct (vuniq cmp v) as [v1| | |] eqn:Eu; try discriminate. cbn in H. injection H as <- <-.
      destruct (vuniq_spec v v1 Hi Eu) as [H1 H2]. split; [exact H1|]. split; [exact H2|exact I].
    - rewrite remove_matching_spec in H. cbn in H. injection H as <- <-. cbn [items]. split; [|split; [reflexivity|exact I]].
      intros F. cbn in F |- *. apply sorted_filter, Hi, F.
    - injection H as <- <-. split; [intros _; exact I|]. split; [reflexivity|exact I].
    - unfold vremove_range in H. destruct (Nat.eqb_spec n 0) as [E|E].
      { injection H as <- <-. split; [exact Hi|]. split; [|exact I]. right. auto. }
      destruct (Nat.ltb_spec (length (items v)) (i + n)) as [E2|E2]; injection H as <- <-.
      { split; [exact Hi|]. split; [|exact I]. right. auto. }
      cbn [items flag].
      assert (El : items v = firstn i (items v) ++ firstn n (skipn i (items v)) ++ skipn (i + n) (items v)).
      { rewrite <- (firstn_skipn i (items v)) at 1. f_equal. rewrite <- (firstn_skipn n (skipn i (items v))) at 1. f_equal. rewrite skipn_skipn. f_equal. lia. }
      split.
      + intros F. cbn in F |- *. specialize (Hi F). rewrite El in Hi. eapply sorted_drop. exact Hi.
      + split; [|exact I]. left. exists (firstn i (items v)), (firstn n (skipn i (items v))), (skipn (i + n) (items v)).
        split; [exact El|]. split; [rewrite firstn_length; lia|]. split; [rewrite firstn_length, skipn_length; lia|]. split; [lia|reflexivity].
  Qed.
End P.
