From Verif Require Import Base CStr Str TreeIterModel TreeIterSpec TreeIterProofs.
Local Open Scope Z_scope.

(** Paths of frames are empty or end in a slash. *)
Definition frame_path (p : list Z) : Prop := p = [] \/ exists q, p = q ++ [47].
Lemma drop_slashes_id s : good_name s -> drop_slashes s = s.
Proof. intros (N & _ & H). destruct s as [|c r]; auto. cbn. destruct (Z.eqb_spec c 47) as [->|]; auto. exfalso. apply H. left; auto. Qed.
Lemma compute_key pre e : frame_path pre -> good_name (t_name e) -> compute_path pre e = pre ++ key e.
Proof.
  intros F G. unfold compute_path, key.
  assert (E : match pre with [] => t_name e | _ => joinpath pre (t_name e) end = pre ++ t_name e).
  { destruct F as [->|(q & ->)]; auto. destruct (q ++ [47]) as [|x l] eqn:Q; [destruct q; discriminate|]. rewrite <- Q. unfold joinpath. destruct (q ++ [47]) as [|x' l'] eqn:Q'; [discriminate|]. rewrite <- Q'.
    rewrite app_length. cbn [length]. replace (length q + 1 - 1)%nat with (length q) by lia. rewrite app_nth2, Nat.sub_diag by lia. cbn [nth]. rewrite Z.eqb_refl. now rewrite drop_slashes_id. }
  rewrite E. destruct (is_tree e); auto. now rewrite <- app_assoc.
Qed.
Lemma frame_path_key pre e : frame_path pre -> is_tree e = true -> frame_path (pre ++ key e).
Proof. intros _ T. right. exists (pre ++ t_name e). unfold key. rewrite T, app_assoc. reflexivity. Qed.

(** Entries of one tree are apart, and so is all that is below them. *)
Lemma slash_split a b x y : ~ In 47 a -> ~ In 47 b -> a ++ 47 :: x = b ++ 47 :: y -> a = b.
Proof.
  revert b. induction a as [|c a IH]; intros [|d b] Na Nb E; auto; cbn in E.
  - injection E as E _. exfalso. apply Nb. left; auto.
  - injection E as E _. exfalso. apply Na. left; auto.
  - injection E as -> E. f_equal. apply (IH b); auto; intros I; [apply Na|apply Nb]; right; auto.
Qed.
Lemma key_below a b r s : good_name (t_name a) -> good_name (t_name b) -> lex (key a) (key b) = Lt -> (r = [] \/ is_tree a = true) -> lex (key a ++ r) (key b ++ s) = Lt.
Proof.
  intros (_ & _ & Ga) (_ & _ & Gb) L R. destruct (lt_split _ _ L) as [A|(c & t & E)]; [now apply apart_lt, apart_ext|].
  destruct R as [->|Ta].
  - rewrite app_nil_r, E. rewrite <- (app_nil_r (key a)) at 1. rewrite <- app_assoc, lex_app_common. reflexivity.
  - exfalso. unfold key in E. rewrite Ta in E. change (bs "/") with [47] in E. rewrite <- app_assoc in E. cbn [app] in E. destruct (is_tree b).
    + assert (Q : t_name b = t_name a) by (eapply slash_split; eauto). rewrite Q in E. apply app_inv_head in E. discriminate.
    + apply Gb. rewrite E. apply in_or_app. right. left. auto.
Qed.

Section Walk.
Variables (st : store) (fl : flags) (pl : list (list Z)).
Hypothesis (Npl : Forall nonul pl) (Spl : sorted_pl pl).

(** What the walk lets through below a tree reached by the path [pre]. *)
Inductive seen : list Z -> list tentry -> yielded -> Prop :=
| s_here pre es e : In e es -> passes pl (pre ++ key e) -> (is_tree e = true -> include_trees fl = true) -> seen pre es (mkyield (pre ++ key e) (t_mode e) (t_id e))
| s_below pre es d sub y : In d es -> is_tree d = true -> passes pl (pre ++ key d) -> autoexpand fl = true -> st (t_id d) = Some sub -> seen (pre ++ key d) sub y -> seen pre es y.
Lemma seen_cons pre e es y : seen pre (e :: es) y <-> seen pre [e] y \/ seen pre es y.
Proof.
  split.
  - intros H. inversion H; subst.
    + destruct H0 as [<-|I]; [left; apply s_here; auto; left; auto|right; apply s_here; auto].
    + destruct H0 as [<-|I]; [left; eapply s_below; eauto; left; auto|right; eapply s_below; eauto].
  - intros [H|H]; inversion H; subst.
    + destruct H0 as [<-|[]]. apply s_here; auto. left; auto.
    + destruct H0 as [<-|[]]. eapply s_below; eauto. left; auto.
    + apply s_here; auto. right; auto.
    + eapply s_below; eauto. right; auto.
Qed.
Lemma seen_path pre es y : seen pre es y -> exists e r, In e es /\ y_path y = pre ++ key e ++ r /\ (r = [] \/ is_tree e = true).
Proof.
  intros H. induction H as [pre es e I P T|pre es d sub y I T P A Sd H IH].
  - exists e, []. rewrite app_nil_r. auto.
  - destruct IH as (e & r & Ie & E & _). exists d, (key e ++ r). split; auto. split; auto. rewrite E, <- app_assoc. reflexivity.
Qed.

(** All paths below the entries come before [x]. *)
Definition upper (pre : list Z) (es : list tentry) (x : list Z) : Prop := forall e r, In e es -> (r = [] \/ is_tree e = true) -> lex (pre ++ key e ++ r) x = Lt.
Definition lower (pre : list Z) (es : list tentry) (x : list Z) : Prop := forall e, In e es -> le x (pre ++ key e).

Definition ran (pre : list Z) (es : list tentry) (idx idx' : nat) (L : list yielded) : Prop :=
  (forall y, In y L -> seen pre es y) /\ in_order L /\
  (prefix_free pl -> forall x0, inv pl idx x0 -> lower pre es x0 ->
     (forall y, seen pre es y -> In y L) /\ forall x1, le x0 x1 -> upper pre es x1 -> inv pl idx' x1).

Lemma in_order_app l1 l2 : in_order l1 -> in_order l2 -> (forall a b, In a l1 -> In b l2 -> lex (y_path a) (y_path b) = Lt) -> in_order (l1 ++ l2).
Proof.
  intros H1 H2 H i j a b L Ha Hb. destruct (Nat.lt_ge_cases i (length l1)) as [Li|Li], (Nat.lt_ge_cases j (length l1)) as [Lj|Lj]; try lia.
  - rewrite nth_error_app1 in Ha, Hb by auto. now apply (H1 i j).
  - rewrite nth_error_app1 in Ha by auto. rewrite nth_error_app2 in Hb by auto. apply H; eapply nth_error_In; eauto.
  - rewrite nth_error_app2 in Ha, Hb by auto. apply (H2 (i - length l1)%nat (j - length l1)%nat); auto. lia.
Qed.
Lemma in_order_1 y : in_order [y].
Proof. intros [|i] [|j] a b L H1 H2; try lia; try (destruct j; discriminate); destruct i; discriminate. Qed.
Lemma in_order_nil : in_order []. Proof. intros [|i] j a b L H; discriminate. Qed.

Hypothesis Can : forall id es, st id = Some es -> canonical es.
Lemma canonical_cons e es : canonical (e :: es) -> good_name (t_name e) /\ canonical es /\ forall b, In b es -> lex (key e) (key b) = Lt.
Proof.
  intros [G Or]. split; [apply G; left; auto|]. split.
  - split; [intros x Hx; apply G; right; auto|]. intros i j a b L Ha Hb. apply (Or (S i) (S j)); auto. lia.
  - intros b Hb. apply In_nth_error in Hb as (j & Hj). apply (Or O (S j) e b); auto. lia.
Qed.

(** One entry: the walk of the entry and what is below it, when the walk of each subtree is known. *)
Lemma run_one pre e es up idx acc : frame_path pre -> good_name (t_name e) ->
  (is_tree e = true -> exists sub, st (t_id e) = Some sub /\
     forall up idx acc, exists n idx' L, (forall k, collect (n + k) st fl pl (mkiter (mkframe (pre ++ key e) sub :: up) idx) acc = collect k st fl pl (mkiter up idx') (rev L ++ acc)) /\ ran (pre ++ key e) sub idx idx' L) ->
  exists n idx' L, (forall k, collect (n + k) st fl pl (mkiter (mkframe pre (e :: es) :: up) idx) acc = collect k st fl pl (mkiter (mkframe pre es :: up) idx') (rev L ++ acc)) /\ ran pre [e] idx idx' L.
Proof.
  intros F G Sub. pose proof (compute_key pre e F G) as CK.
  destruct (next_is pl idx (pre ++ key e)) as [b i1] eqn:N.
  assert (Snd : b = true -> passes pl (pre ++ key e)) by (intros ->; apply (next_is_sound pl idx); auto; now rewrite N).
  assert (Cmp : prefix_free pl -> forall x0, inv pl idx x0 -> lower pre [e] x0 -> (b = true <-> passes pl (pre ++ key e)) /\ inv pl i1 (pre ++ key e)).
  { intros PF x0 Iv Lw. pose proof (next_is_complete pl idx (pre ++ key e) Npl Spl PF (inv_mono _ _ _ _ (Lw e (or_introl eq_refl)) Iv)) as Q. now rewrite N in Q. }
  assert (Up1 : forall x1, upper pre [e] x1 -> le (pre ++ key e) x1) by (intros x1 U; apply lt_le; specialize (U e [] (or_introl eq_refl) (or_introl eq_refl)); now rewrite app_nil_r in U).
  destruct b.
  2:{ exists 1%nat, i1, []. split; [intros k; cbn [Nat.add collect]; unfold advance_round; cbn [it_frames f_rest f_path it_idx]; rewrite CK, N; reflexivity|].
      split; [intros y []|]. split; [apply in_order_nil|]. intros PF x0 Iv Lw. destruct (Cmp PF x0 Iv Lw) as [Cb Ci]. split.
      - intros y Sy. exfalso. assert (P : passes pl (pre ++ key e)) by (inversion Sy; subst; match goal with H : In _ [e] |- _ => destruct H as [<-|[]] end; auto). apply Cb in P. discriminate.
      - intros x1 _ U. eapply inv_mono; [apply Up1, U|auto]. }
  specialize (Snd eq_refl). set (y := mkyield (pre ++ key e) (t_mode e) (t_id e)).
  destruct (is_tree e) eqn:T.
  - destruct (Sub eq_refl) as (sub & Hs & Run). destruct (autoexpand fl) eqn:X.
    + destruct (Run (mkframe pre es :: up) i1 (if include_trees fl then y :: acc else acc)) as (n & i2 & L & E & (R1 & R2 & R3)).
      exists (S n), i2, ((if include_trees fl then [y] else []) ++ L). split.
      { intros k. cbn [Nat.add collect]. unfold advance_round. cbn [it_frames f_rest f_path it_idx]. rewrite CK, N, T, X, Hs. cbn [negb andb].
        destruct (include_trees fl); cbn [negb]; rewrite E; cbn [app]; [cbn [rev]; rewrite <- app_assoc|]; reflexivity. }
      split; [|split].
      * intros z Hz. apply in_app_iff in Hz as [Hz|Hz].
        -- destruct (include_trees fl) eqn:It; [|destruct Hz]. destruct Hz as [<-|[]]. apply s_here; auto. left; auto.
        -- eapply s_below; eauto. left; auto.
      * apply in_order_app; auto; [destruct (include_trees fl); [apply in_order_1|apply in_order_nil]|].
        intros a b Ha Hb. destruct (include_trees fl); [|destruct Ha]. destruct Ha as [<-|[]]. apply R1, seen_path in Hb as (d & r & Id & Ed & _). rewrite Ed. unfold y. cbn [y_path].
        rewrite <- (app_nil_r (pre ++ key e)) at 1. rewrite lex_app_common. pose proof (proj1 (Can _ _ Hs) d Id) as (Nn & _). unfold key. destruct (t_name d); [congruence|]. destruct (is_tree d); reflexivity.
      * intros PF x0 Iv Lw. destruct (Cmp PF x0 Iv Lw) as [Cb Ci].
        assert (Lw' : lower (pre ++ key e) sub (pre ++ key e)) by (intros d Id; apply le_prefix).
        destruct (R3 PF (pre ++ key e) Ci Lw') as [R4 R5]. split.
        -- intros z Sz. inversion Sz; subst.
           ++ match goal with H : In _ [e] |- _ => destruct H as [<-|[]] end. apply in_or_app. left. rewrite (H1 T). left; auto.
           ++ match goal with H : In _ [e] |- _ => destruct H as [<-|[]] end. apply in_or_app. right. apply R4. congruence.
        -- intros x1 L1 U. apply R5; [apply Up1, U|]. intros d r Id _. rewrite <- app_assoc. apply U; [left; auto|auto].
    + exists 1%nat, i1, (if include_trees fl then [y] else []). split.
      { intros k. cbn [Nat.add collect]. unfold advance_round. cbn [it_frames f_rest f_path it_idx]. rewrite CK, N, T, X. cbn [negb andb]. destruct (include_trees fl); reflexivity. }
      split; [|split].
      * intros z Hz. destruct (include_trees fl) eqn:It; [|destruct Hz]. destruct Hz as [<-|[]]. apply s_here; auto. left; auto.
      * destruct (include_trees fl); [apply in_order_1|apply in_order_nil].
      * intros PF x0 Iv Lw. destruct (Cmp PF x0 Iv Lw) as [Cb Ci]. split.
        -- intros z Sz. inversion Sz; subst; [|congruence]. match goal with H : In _ [e] |- _ => destruct H as [<-|[]] end. rewrite (H1 T). left; auto.
        -- intros x1 _ U. eapply inv_mono; [apply Up1, U|auto].
  - exists 1%nat, i1, [y]. split.
    { intros k. cbn [Nat.add collect]. unfold advance_round. cbn [it_frames f_rest f_path it_idx]. rewrite CK, N, T. reflexivity. }
    split; [|split].
    * intros z [<-|[]]. apply s_here; auto. left; auto. congruence.
    * apply in_order_1.
    * intros PF x0 Iv Lw. destruct (Cmp PF x0 Iv Lw) as [Cb Ci]. split.
      -- intros z Sz. inversion Sz; subst; match goal with H : In _ [e] |- _ => destruct H as [<-|[]] end; [left; auto|congruence].
      -- intros x1 _ U. eapply inv_mono; [apply Up1, U|auto].
Qed.

Lemma complete_ind' (P : list tentry -> Prop) :
  (forall es, (forall d, In d es -> is_tree d = true -> exists sub, st (t_id d) = Some sub /\ complete st sub /\ P sub) -> P es) -> forall es, complete st es -> P es.
Proof.
  intros H. fix IH 2. intros es [es' Hd]. apply H. intros d Id Td. destruct (Hd d Id Td) as (sub & Hs & Hc). exists sub. split; [exact Hs|]. split; [exact Hc|]. apply IH. exact Hc.
Qed.
Lemma run_frame es : complete st es -> canonical es -> forall pre, frame_path pre -> forall up idx acc,
  exists n idx' L, (forall k, collect (n + k) st fl pl (mkiter (mkframe pre es :: up) idx) acc = collect k st fl pl (mkiter up idx') (rev L ++ acc)) /\ ran pre es idx idx' L.
Proof.
  revert es. apply (complete_ind' (fun es => canonical es -> forall pre, frame_path pre -> forall up idx acc,
  exists n idx' L, (forall k, collect (n + k) st fl pl (mkiter (mkframe pre es :: up) idx) acc = collect k st fl pl (mkiter up idx') (rev L ++ acc)) /\ ran pre es idx idx' L)). intros es IHd Hc pre F.
  assert (Sub : forall e, In e es -> is_tree e = true -> exists sub, st (t_id e) = Some sub /\
     forall up idx acc, exists n idx' L, (forall k, collect (n + k) st fl pl (mkiter (mkframe (pre ++ key e) sub :: up) idx) acc = collect k st fl pl (mkiter up idx') (rev L ++ acc)) /\ ran (pre ++ key e) sub idx idx' L).
  { intros e Ie Te. destruct (IHd e Ie Te) as (sub & Hs & (_ & IH)). exists sub. split; auto. intros up idx acc. apply IH; [eapply Can; eauto|now apply frame_path_key]. }
  clear IHd. induction es as [|e es IH]; intros up idx acc.
  - exists 1%nat, idx, []. split; [reflexivity|]. split; [intros y []|]. split; [apply in_order_nil|]. intros PF x0 Iv _. split; [intros y H; inversion H; contradiction|]. intros x1 L1 _. eapply inv_mono; eauto.
  - apply canonical_cons in Hc as (G & Hc & Lt').
    destruct (run_one pre e es up idx acc F G (Sub e (or_introl eq_refl))) as (n1 & i1 & L1 & E1 & (A1 & A2 & A3)).
    destruct (IH Hc (fun x Hx => Sub x (or_intror Hx)) up i1 (rev L1 ++ acc)) as (n2 & i2 & L2 & E2 & (B1 & B2 & B3)).
    exists (n1 + n2)%nat, i2, (L1 ++ L2). split; [intros k; rewrite <- Nat.add_assoc, E1, E2, rev_app_distr, <- app_assoc; reflexivity|].
    split; [|split].
    + intros y Hy. apply seen_cons. apply in_app_iff in Hy as [Hy|Hy]; auto.
    + apply in_order_app; auto. intros a b Ha Hb. apply A1, seen_path in Ha as (d & r & [<-|[]] & Ea & Ra). apply B1, seen_path in Hb as (d' & r' & Id & Eb & Rb).
      rewrite Ea, Eb, lex_app_common. apply key_below; auto. apply Hc, Id.
    + intros PF x0 Iv Lw. assert (Lw1 : lower pre [e] x0) by (intros d [<-|[]]; apply Lw; left; auto). destruct (A3 PF x0 Iv Lw1) as [A4 A5].
      destruct es as [|e2 es2].
      * assert (L2 = []) as ->. { destruct L2 as [|y L2]; auto. exfalso. specialize (B1 y (or_introl eq_refl)). inversion B1; contradiction. }
        split.
        -- intros y Sy. rewrite app_nil_r. apply A4. apply seen_cons in Sy as [Sy|Sy]; auto. inversion Sy; contradiction.
        -- intros x1 L1' U. assert (I1 : inv pl i1 x1) by (apply A5; auto; intros d r Id; apply U; destruct Id as [<-|[]]; left; auto).
           destruct (B3 PF x1 I1 ltac:(intros d [])) as [_ B5]. apply B5; [apply le_refl|intros d r []].
      * set (x1 := pre ++ key e2).
        assert (I1 : inv pl i1 x1).
        { apply A5; [apply Lw; right; left; auto|]. intros d r [<-|[]] Rr. unfold x1. rewrite lex_app_common. rewrite <- (app_nil_r (key e2)). apply key_below; auto; [apply Hc; left; auto|apply Lt'; left; auto]. }
        assert (Lw2 : lower pre (e2 :: es2) x1).
        { intros d [<-|Id]; [apply le_refl|]. unfold x1, le. rewrite lex_app_common. apply canonical_cons in Hc as (_ & _ & Q). rewrite (Q d Id). discriminate. }
        destruct (B3 PF x1 I1 Lw2) as [B4 B5]. split.
        -- intros y Sy. apply seen_cons in Sy as [Sy|Sy]; apply in_or_app; auto.
        -- intros x2 L2' U. apply B5.
           ++ apply lt_le. unfold x1. rewrite <- (app_nil_r (key e2)). apply U; [right; left; auto|auto].
           ++ intros d r Id. apply U. right; auto.
Qed.
End Walk.
