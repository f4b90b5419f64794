(** The multi-pack-index writer: sorting packs and entries, pack names. *)
From Verif Require Import Base Arr CStr Str TsortModel TsortSpec TsortTop OidModel OidSpec OidProofs IdxFileModel IdxFileProofs PackIdxModel PackIdxSpec PackIdxProofs VectorModel VectorSpec VectorProofs CgModel MidxModel MidxSpec ReflogProofs.
From Coq Require Import Permutation.

(** *** Sorting by a byte string *)
Section Key.
  Context {A : Type} (key : A -> list Z).
  Definition kcmp (a b : A) : Z := match lex (key a) (key b) with Lt => -1 | Eq => 0 | Gt => 1 end.
  Lemma kcmp_ok : cmp_ok kcmp.
  Proof.
    unfold kcmp. split.
    - intros a b. rewrite (lex_antisym (key a)). destruct (lex (key a) (key b)); reflexivity.
    - intros a b c. destruct (lex (key a) (key b)) eqn:E1; try lia; destruct (lex (key b) (key c)) eqn:E2; try lia; intros _ _.
      + apply lex_eq in E1, E2. rewrite E1, E2, lex_refl. lia.
      + apply lex_eq in E1. rewrite E1, E2. lia.
      + apply lex_eq in E2. rewrite <- E2, E1. lia.
      + rewrite (lex_lt_trans _ _ _ E1 E2). lia.
  Qed.
  Lemma kcmp_0 a b : kcmp a b = 0 <-> key a = key b.
  Proof. unfold kcmp. rewrite <- lex_eq. destruct (lex (key a) (key b)); split; congruence. Qed.

  Lemma key_increasing : forall l, sorted kcmp l -> (forall x, In x l -> exists e, filter (fun y => kcmp x y =? 0) l = [e]) -> increasing (map key l).
  Proof.
    induction l as [|a l IH]; intros Hs Hu; [exact I|]. destruct Hs as [Ha Hs].
    assert (Hi : increasing (map key l)).
    { apply IH; [exact Hs|]. intros x Hx. destruct (Hu x (or_intror Hx)) as (e & E). cbn [filter] in E.
      destruct (kcmp x a =? 0); [|exists e; exact E]. injection E as _ E. exfalso.
      assert (In x (filter (fun y => kcmp x y =? 0) l)) as K by (apply filter_In; split; [exact Hx|]; apply Z.eqb_eq; apply kcmp_0; reflexivity). rewrite E in K. destruct K. }
    destruct l as [|b r]; [exact I|]. cbn [map]. split; [|exact Hi].
    destruct (Hu a (or_introl eq_refl)) as (e & E). cbn [filter] in E. assert (Eaa : kcmp a a = 0) by (apply kcmp_0; reflexivity). rewrite Eaa in E. cbn [Z.eqb] in E.
    specialize (Ha b (or_introl eq_refl)). destruct (Z.eqb_spec (kcmp a b) 0); [discriminate|]. unfold kcmp in *. destruct (lex (key a) (key b)); [congruence|reflexivity|lia].
  Qed.
  Lemma nodup_increasing : forall l, sorted kcmp l -> NoDup (map key l) -> increasing (map key l).
  Proof.
    induction l as [|a l IH]; intros Hs Hn; [exact I|]. destruct Hs as [Ha Hs]. cbn [map] in *. inversion_clear Hn as [|? ? Hx Hn'].
    specialize (IH Hs Hn'). destruct l as [|b r]; [exact I|]. cbn [map] in *. split; [|exact IH].
    specialize (Ha b (or_introl eq_refl)). unfold kcmp in Ha. destruct (lex (key a) (key b)) eqn:E; [|reflexivity|lia].
    exfalso. apply Hx. left. apply lex_eq in E. symmetry. exact E.
  Qed.

  Lemma sort_any (v : vec A) : flag v = false \/ (length (items v) <= 1)%nat -> Z.of_nat (length (items v)) < 8589934592 ->
    exists w, vsort kcmp v = Ok w /\ sorted kcmp (items w) /\ flag w = true /\ Permutation (items v) (items w).
  Proof.
    intros Hf Hl. assert (Hi : vinv kcmp v). { intros Hfl. destruct Hf as [Hf|Hf]; [congruence|apply short_sorted; exact Hf]. }
    assert (Hs : exists w, vsort kcmp v = Ok w).
    { unfold vsort. destruct (flag v); [eauto|]. destruct (1 <? length (items v))%nat; [|eauto].
      destruct (tsort_spec kcmp kcmp_ok (items v)) as [(d & Ed & _)|[Eu Hlen]]; [rewrite Ed; cbn [bindr]; eauto|lia]. }
    destruct Hs as (w & Hs). exists w. split; [exact Hs|]. destruct (vsort_spec kcmp kcmp_ok v w Hi Hs) as (H1 & H2 & _ & H3 & _). auto.
  Qed.
  Lemma sort_uniq (l : list A) : Z.of_nat (length l) < 8589934592 ->
    exists w1 w2, vsort kcmp (mkvec l false) = Ok w1 /\ vuniq kcmp w1 = Ok w2 /\ increasing (map key (items w2)) /\ incl (items w2) l /\
      (forall c, In c l -> exists d, In d (items w2) /\ key d = key c) /\ (length (items w2) <= length l)%nat.
  Proof.
    intros Hl. destruct (sort_any (mkvec l false) (or_introl eq_refl) Hl) as (v1 & Hs & Hso & Hf & Hp). cbn [items] in Hp.
    assert (Hu : exists v2, vuniq kcmp v1 = Ok v2).
    { unfold vuniq. destruct (Nat.leb_spec (length (items v1)) 1) as [El|El]; [eauto|]. unfold vsort. rewrite Hf. cbn [bindr].
      destruct (items v1) as [|x r] eqn:Ex; [cbn in El; lia|]. destruct (uniq_loop_spec kcmp r [] x []) as (junk & Hu). cbn [app length Nat.add] in Hu.
      replace (length (x :: r) - 1)%nat with (length r) by (cbn; lia). rewrite Hu. cbn [bindr]. eauto. }
    destruct Hu as (v2 & Hu). exists v1, v2. split; [exact Hs|]. split; [exact Hu|].
    assert (Hi1 : vinv kcmp v1) by (intros _; exact Hso). destruct (vuniq_spec kcmp kcmp_ok v1 v2 Hi1 Hu) as [_ Hsp]. cbn [step_spec] in Hsp.
    assert (Q : increasing (map key (items v2)) /\ incl (items v2) l /\ (forall c, In c l -> exists d, In d (items v2) /\ key d = key c)).
    { destruct Hsp as [[Hl1 Ev]|[[Hs2 Hall] Hincl]].
      - rewrite Ev. split; [|split].
        + destruct (items v1) as [|x [|y r]]; [exact I|exact I|cbn in Hl1; lia].
        + intros x Hx. apply (Permutation_in _ (Permutation_sym Hp)). exact Hx.
        + intros c Hc. exists c. split; [|reflexivity]. apply (Permutation_in _ Hp). exact Hc.
      - split; [|split].
        + apply key_increasing; [exact Hs2|]. intros x Hx. destruct (Hall x (Hincl x Hx)) as (e & E & _). exists e. exact E.
        + intros x Hx. apply (Permutation_in _ (Permutation_sym Hp)). apply Hincl. exact Hx.
        + intros c Hc. destruct (Hall c (Permutation_in _ Hp Hc)) as (e & E & _). exists e. assert (K : In e [e]) by (left; reflexivity). rewrite <- E in K. apply filter_In in K as [K1 K2].
          split; [exact K1|]. symmetry. apply kcmp_0. apply Z.eqb_eq. exact K2. }
    destruct Q as (Q1 & Q2 & Q3). split; [exact Q1|]. split; [exact Q2|]. split; [exact Q3|].
    apply NoDup_incl_length; [|exact Q2]. clear - Q1. assert (ND : NoDup (map key (items v2))).
    { revert Q1. induction (items v2) as [|a r IH]; intros Hi; [constructor|]. cbn [map] in *. constructor.
      - intros Hin. apply In_nth_error in Hin as (j & Hj). pose proof (increasing_nth (key a :: map key r) Hi 0 (S j) (key a) (key a) ltac:(lia) eq_refl Hj) as E. rewrite lex_refl in E. discriminate.
      - apply IH. destruct (map key r); [exact I|]. apply Hi. }
    apply NoDup_map_inv in ND. exact ND.
  Qed.
End Key.
Lemma inserted_any {A} : forall (l : list A) (v : vec A), flag v = (length (items v) <=? 1)%nat -> items (fold_left vinsert l v) = items v ++ l /\ flag (fold_left vinsert l v) = (length (items v ++ l) <=? 1)%nat.
Proof.
  induction l as [|c r IH]; intros v Hv; cbn [fold_left].
  - rewrite app_nil_r. auto.
  - destruct (IH (vinsert v c) eq_refl) as [E1 E2]. cbn [vinsert items] in E1, E2. rewrite <- app_assoc in E1, E2. auto.
Qed.

(** *** Names *)
Lemma ends_app s x : ends_with x (s ++ x) = true.
Proof. unfold ends_with. rewrite app_length. replace (length s + length x - length x)%nat with (length s) by lia. rewrite skipn_app, skipn_all, Nat.sub_diag. cbn [app skipn]. apply leqb_spec. reflexivity. Qed.
Lemma idx_lt a b : ~ In 46 a -> ~ In 46 b -> lex (a ++ bs ".pack") (b ++ bs ".pack") = Lt -> lex (a ++ bs ".idx") (b ++ bs ".idx") = Lt.
Proof.
  revert b. induction a as [|x a IH]; intros [|y b] Ha Hb; cbn [app].
  - intros H. cbn in H. discriminate.
  - change (bs ".pack") with [46; 112; 97; 99; 107]. change (bs ".idx") with [46; 105; 100; 120]. cbn [lex]. destruct (Z.compare_spec 46 y); [exfalso; apply Hb; left; congruence|reflexivity|discriminate].
  - change (bs ".pack") with [46; 112; 97; 99; 107]. change (bs ".idx") with [46; 105; 100; 120]. cbn [lex]. destruct (Z.compare_spec x 46); [exfalso; apply Ha; left; congruence|reflexivity|discriminate].
  - cbn [lex]. destruct (Z.compare_spec x y); [|reflexivity|discriminate]. apply IH; intros H0; [apply Ha|apply Hb]; right; exact H0.
Qed.
Lemma strnlen_at : forall w r n, ~ In 0 w -> (length w < n)%nat -> strnlen (w ++ 0 :: r) n = Ok (length w).
Proof.
  induction w as [|c w IH]; intros r [|n] H0 Hl; cbn [length] in Hl; try lia; cbn [app strnlen length].
  - reflexivity.
  - destruct (Z.eqb_spec c 0) as [->|]; [exfalso; apply H0; left; reflexivity|]. rewrite IH; [reflexivity|intros H; apply H0; right; exact H|lia].
Qed.
Definition idx_name (s : list Z) : list Z := s ++ bs ".idx".
Definition name_row (s : list Z) : list Z := idx_name s ++ [0].
Definition name_ok (s : list Z) : Prop := s <> [] /\ ~ In 0 s /\ ~ In 47 s /\ ~ In 92 s.
Lemma names_read : forall ss z size prev, Forall name_ok ss -> increasing (map idx_name ss) ->
  match prev with Some p => match ss with s :: _ => lex p (idx_name s) = Lt | [] => True end | None => True end ->
  (length (concat (map name_row ss)) <= size)%nat -> names_loop (length ss) (concat (map name_row ss) ++ z) size prev = Ok (map idx_name ss).
Proof.
  induction ss as [|s ss IH]; intros z size prev HF Hi Hp Hl; [reflexivity|]. inversion_clear HF as [|? ? HN HF']. destruct HN as (N1 & N2 & N3 & N4).
  cbn [length map concat]. cbn [map concat] in Hl. rewrite app_length in Hl. unfold name_row at 1 in Hl. rewrite app_length in Hl. cbn [length] in Hl.
  unfold name_row at 1. rewrite <- !app_assoc. cbn [app]. cbn [names_loop].
  assert (Hno : forall c, ~ In c s -> ~ In c (bs ".idx") -> ~ In c (idx_name s)) by (intros c H1 H2 H; apply in_app_or in H; tauto).
  assert (Lid : length (idx_name s) = (length s + 4)%nat) by (unfold idx_name; rewrite app_length; reflexivity).
  assert (Ls : (0 < length s)%nat) by (destruct s; [destruct (N1 eq_refl)|cbn; lia]).
  rewrite strnlen_at; [|apply Hno; [exact N2|cbn; intuition discriminate]|lia]. cbn [bindr].
  destruct (Nat.eqb_spec (length (idx_name s)) 0); [lia|]. destruct (Nat.ltb_spec size (length (idx_name s) + 1)); [lia|].
  cbv zeta. rewrite firstn_app, firstn_all, Nat.sub_diag. cbn [firstn]. rewrite app_nil_r.
  replace (match prev with Some p => _ | None => false end) with false by (destruct prev as [p|]; [rewrite Hp; reflexivity|reflexivity]).
  destruct (Nat.leb_spec (length (idx_name s)) 4); [lia|]. unfold idx_name at 1. rewrite ends_app. cbn [orb negb].
  replace (existsb _ (idx_name s)) with false.
  2:{ symmetry. apply not_true_iff_false. intros E. apply existsb_exists in E as (c & Hc & E). apply orb_true_iff in E as [E|E]; apply Z.eqb_eq in E; subst c; revert Hc; apply Hno; auto; cbn; intuition discriminate. }
  replace (skipn (length (idx_name s) + 1) (idx_name s ++ 0 :: concat (map name_row ss) ++ z)) with (concat (map name_row ss) ++ z).
  2:{ rewrite (Nat.add_comm _ 1), <- skipn_skipn. rewrite skipn_app, skipn_all, Nat.sub_diag. cbn [app skipn]. reflexivity. }
  rewrite IH; [reflexivity|exact HF'| | |lia].
  - destruct ss as [|a r]; [exact I|]. apply Hi.
  - destruct ss as [|a r]; [exact I|]. apply Hi.
Qed.
Lemma cons_eq {A} (a b : A) l r : a :: l = b :: r -> a = b /\ l = r.
Proof. intros H. injection H as E1 E2. auto. Qed.
Lemma pack_names_spec : forall ps ss, map mp_name ps = map (fun s => s ++ bs ".pack") ss -> Forall name_ok ss -> pack_names ps = Ok (concat (map name_row ss)).
Proof.
  induction ps as [|p ps IH]; intros [|s ss] E HF; try discriminate; [reflexivity|]. cbn [map] in E. destruct (cons_eq _ _ _ _ E) as [E1 E2]. clear E. inversion_clear HF as [|? ? HN HF']. destruct HN as (N1 & _).
  cbn [pack_names]. rewrite E1. assert (Ls : (0 < length s)%nat) by (destruct s; [destruct (N1 eq_refl)|cbn; lia]).
  rewrite ends_app. rewrite app_length. change (length (bs ".pack")) with 5%nat. destruct (Nat.leb_spec (length s + 5) 5); [lia|]. cbn [orb negb].
  rewrite (IH ss E2 HF'). cbn [bindr]. replace (length s + 5 - 5)%nat with (length s) by lia. rewrite firstn_app, firstn_all, Nat.sub_diag. cbn [firstn map concat]. rewrite app_nil_r.
  unfold name_row at 2, idx_name. rewrite <- !app_assoc. reflexivity.
Qed.
