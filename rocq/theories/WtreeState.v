(** The tree cache stays right over any history of an index. *)
From Verif Require Import Base Arr Str CStr VectorModel VectorSpec VectorProofs HashModel StrMap IndexModel IndexSpec IndexProofs IndexMain TreeModel TreeSpec TreeProofs TreeBuild TreeProps WtreeModel WtreeSpec WtreeProofs WtreeMain ReflogProofs.
From Coq Require Import Sorting.Sorted Sorting.Permutation.

(** *** The directory a list of names leads to *)
Fixpoint go_down (d : list Z) (ds : list (list Z)) : list Z := match ds with [] => d | c :: r => go_down (pre d ++ c) r end.
Definition clean (ds : list (list Z)) : Prop := Forall (fun c => c <> [] /\ ~ In 47 c) ds.
Lemma go_down_parts : forall ds d, clean ds -> parts (go_down d ds) = parts d ++ ds.
Proof.
  induction ds as [|c ds IH]; intros d H; cbn [go_down]; [now rewrite app_nil_r|]. inversion H as [|? ? [Nc Sc] H']; subst. rewrite IH, parts_sub by auto. now rewrite <- app_assoc.
Qed.
Lemma parts_inj a b : parts a = parts b -> a = b.
Proof.
  destruct a as [|x a], b as [|y b]; cbn [parts]; auto.
  - intros E. symmetry in E. destruct (split_nonnil _ _ E).
  - intros E. destruct (split_nonnil _ _ E).
  - intros E. rewrite <- (join_split 47 (x :: a)), <- (join_split 47 (y :: b)). now rewrite E.
Qed.
Lemma tidy_clean d : tidy d -> clean (parts d).
Proof.
  unfold tidy, clean. intros H. rewrite Forall_forall in *. intros c Hc. split; [auto|]. destruct d as [|x d]; [destruct Hc|]. cbn [parts] in Hc. pose proof (split_clean 47 (x :: d)) as S. rewrite Forall_forall in S. auto.
Qed.
Lemma go_down_tidy d : tidy d -> go_down [] (parts d) = d.
Proof. intros H. apply parts_inj. rewrite go_down_parts by (now apply tidy_clean). reflexivity. Qed.

Section State.
Context (nhash : list Z -> nat) (name_ok : list Z -> bool) (sz : nat) (oid_of : list Z -> list Z) (id_of : Z -> list Z) (obj_ok : odb -> list Z -> Z -> bool).
Context (Hslash : forall n, name_ok n = true -> ~ In (ch "/") n) (Hid : forall x, length (id_of x) = sz) (Hoid : forall b, length (oid_of b) = sz).
Notation open_tree := (open_tree sz oid_of). Notation deep := (deep sz oid_of). Notation standing := (standing sz oid_of id_of). Notation nocoll := (nocoll oid_of).

(** *** Reading the cache from the trees *)
Definition rightly (ents : list entry) (st : odb) (d : list Z) (t : tcache) : Prop :=
  forall ds node, clean ds -> cache_at t ds = Some node -> 0 <= c_count node -> standing ents st (go_down d ds) (c_oid node).
Lemma standing_sub ents st d oid es m n o : standing ents st d oid -> deep st oid es -> In (mkte m n o) es -> isdir m -> standing ents st (pre d ++ n) o.
Proof.
  intros (es' & D' & H) D Hin Hd. assert (es' = es) by (pose proof (deep_open _ _ _ _ _ D'); pose proof (deep_open _ _ _ _ _ D); congruence). subst es'.
  destruct (deep_inv _ _ _ _ _ D) as (b & _ & _ & _ & _ & N & Fi & Sub). destruct (Sub _ _ _ Hin Hd) as (_ & sub & Ds & _). destruct (fine_in _ oid_of _ _ _ _ Fi Hin) as [Nn Sn].
  exists sub. split; auto. intros p m' o'. rewrite <- (holds_sub _ _ _ _ _ _ _ _ _ p m' o' D Hin Hd (deep_open _ _ _ _ _ Ds)), H, pre_sub by auto. rewrite <- !app_assoc. reflexivity.
Qed.
Lemma read_cache_ok ents st : forall f name d oid es t, read_cache sz oid_of f st name oid es = Ok t -> standing ents st d oid -> deep st oid es ->
  rightly ents st d t /\ find_child (c_kids t) [] = None /\ c_oid t = oid /\ c_name t = name.
Proof.
  induction f as [|f IH]; intros name d oid es t H St D; [discriminate|]. cbn [read_cache] in H.
  match type of H with bindr (?G es) _ = _ => set (go := G) in H end. destruct (go es) as [[cnt kids]| | |] eqn:Eg; try discriminate. cbn [bindr fst snd] in H. apply Ok_inj in H. subst t. cbn [c_kids c_oid c_name].
  assert (Kids : forall k, In k kids -> c_name k <> [] /\ ~ In 47 (c_name k) /\ rightly ents st (pre d ++ c_name k) k).
  { assert (G : forall l cnt kids, incl l es -> go l = Ok (cnt, kids) -> forall k, In k kids -> c_name k <> [] /\ ~ In 47 (c_name k) /\ rightly ents st (pre d ++ c_name k) k).
    { induction l as [|e l IHl]; intros cn ks Hi E k Hk; cbn [go] in E; [apply Ok_inj in E; injection E as <- <-; destruct Hk|].
      assert (Hi' : incl l es) by (intros z Hz; apply Hi; now right). pose proof (Hi e (or_introl eq_refl)) as He. destruct e as [m n o]. cbn [te_attr te_name te_oid] in E. destruct (normalize_filemode m =? 16384) eqn:Em.
      - assert (Hd : isdir m). { unfold normalize_filemode in Em. unfold isdir. destruct (Z.eqb_spec (Z.land m 61440) 16384); auto. exfalso. repeat match type of Em with context [if ?b then _ else _] => destruct b end; discriminate. }
        destruct (open_tree st o) as [sub|] eqn:Eo; [|discriminate]. destruct (read_cache sz oid_of f st n o sub) as [k0| | |] eqn:Ek; try discriminate. cbn [bindr] in E. change (match _ with Ok _ => _ | Err _ => _ | UB => _ | NoFuel => _ end) with (do p <- go l ;; Ok (c_count k0 + fst p, k0 :: snd p)) in E || idtac.
        destruct (go l) as [[c2 k2]| | |] eqn:El; try discriminate. cbn [bindr fst snd] in E. apply Ok_inj in E. injection E as <- <-. destruct Hk as [<-|Hk]; [|apply (IHl c2 k2); auto].
        destruct (deep_inv _ _ _ _ _ D) as (b & _ & _ & _ & _ & N & Fi & Sub). destruct (Sub _ _ _ He Hd) as (_ & sub' & Ds & _). rewrite (deep_open _ _ _ _ _ Ds) in Eo. injection Eo as ->. destruct (fine_in _ oid_of _ _ _ _ Fi He) as [Nn Sn].
        destruct (IH n (pre d ++ n) o sub k0 Ek (standing_sub _ _ _ _ _ _ _ _ St D He Hd) Ds) as (A & _ & _ & ->). auto.
      - destruct (go l) as [[c2 k2]| | |] eqn:El; try discriminate. cbn [bindr fst snd] in E. apply Ok_inj in E. injection E as <- <-. apply (IHl c2 k2); auto. }
    apply (G es cnt kids); auto. apply incl_refl. }
  split; [|split; [|split; reflexivity]].
  - intros [|c ds] node Hc Hn Hp; cbn [cache_at go_down] in *; [injection Hn as <-; exact St|]. cbn [c_kids] in Hn. destruct (find_child kids c) as [k|] eqn:Ef; [|discriminate]. apply find_some in Ef. destruct Ef as [Hk Ek]. apply leqb_spec in Ek. subst c.
    inversion Hc as [|? ? _ Hc']; subst. destruct (Kids k Hk) as (_ & _ & Rk). now apply Rk.
  - destruct (find_child kids []) as [k|] eqn:Ef; auto. apply find_some in Ef. destruct Ef as [Hk Ek]. apply leqb_spec in Ek. destruct (Kids k Hk) as (Nk & _). congruence.
Qed.

(** *** What a call does to the entries without conflict *)
Context (path_ok : list Z -> bool).
Notation its ix := (items (i_ents ix)).
Definition noted (base : index) (y : entry) : Prop :=
  e_stage y <> 0 /\ (exists m, e_mode y = create_mode m) /\ ((i_next base <= e_ptr y)%nat \/ exists z, In z (its base) /\ e_ptr z = e_ptr y /\ e_stage z = e_stage y).
Definition follows (base ix : index) : Prop := (i_next base <= i_next ix)%nat /\ forall y, In y (its ix) -> In y (its base) \/ noted base y.

Lemma insert_new ix e id_ok c ix' : inv false ix -> 0 <= e_stage e -> insert false ix e true id_ok = Ok (c, ix') ->
  i_next ix' = i_next ix /\ forall y, In y (its ix') -> In y (its ix) \/ (c = 0 /\ e_path y = e_path e /\ e_stage y = e_stage e /\ e_mode y = create_mode (e_mode e) /\
    (e_ptr y = e_ptr e \/ exists z, In z (its ix) /\ e_ptr z = e_ptr y /\ e_path z = e_path e /\ e_stage z = e_stage e)).
Proof.
  intros Hi Hst H. unfold insert, vsort in H. rewrite (inv_flag _ _ Hi) in H. cbn [bindr] in H. replace (mki (i_ents ix) (i_map ix) (i_next ix)) with ix in H by (destruct ix; reflexivity).
  unfold existing_and_pos in H. destruct (ifind_spec false ix (e_path e) (e_stage e) Hi) as (found & pos & Ef & A). rewrite Ef in H. cbn [bindr] in H.
  destruct (answer_found _ _ _ _ A) as [A1 A2]. set (e' := IndexModel.mke (e_ptr e) (e_path e) (e_stage e) (create_mode (e_mode e)) (e_data e)) in *.
  destruct found.
  - destruct (A1 eq_refl) as (old & Hold & Hk). rewrite (aget_some _ _ _ Hold) in H. cbn [bindr] in H. rewrite srch_ecmp in Hk by lia. apply ecmp_eq in Hk. cbn [e_path e_stage] in Hk.
    destruct id_ok; cbn [negb] in H; [|apply Ok_inj in H; injection H as <- <-; auto].
    assert (pos < length (its ix))%nat by (apply nth_error_Some; congruence).
    destruct (check_collision_spec false ix e' pos Hi Hst ltac:(lia)) as (ix1 & E1 & (J1 & N1 & Inc & Keep) & _). rewrite E1 in H. cbn [bindr negb] in H. apply Ok_inj in H. injection H as <- <-. cbn [i_next i_ents items]. split; [exact N1|].
    intros y Hy. apply in_map_iff in Hy. destruct Hy as (x & <- & Hx). unfold overwrite. destruct (Nat.eqb_spec (e_ptr x) (e_ptr old)); [|left; auto]. right. split; auto. cbn [e_path e_stage e_mode e_ptr e']. do 3 (split; auto).
    right. exists old. split; [eapply nth_error_In; eauto|]. destruct Hk as [K1 K2]. rewrite !folded_false in K1. auto.
  - cbn [bindr] in H. destruct id_ok; cbn [negb] in H; [|apply Ok_inj in H; injection H as <- <-; auto].
    destruct (check_collision_spec false ix e' 0 Hi Hst ltac:(lia)) as (ix1 & E1 & (J1 & N1 & Inc & Keep) & _). rewrite E1 in H. cbn [bindr negb] in H.
    unfold vinsert_sorted, vsort in H. rewrite (inv_flag _ _ J1) in H. cbn [bindr] in H.
    destruct (bsearch_spec _ _ (sorted_ordered (ecmp false) (ecmp_ok false) _ e' (ss_sorted _ _ (inv_sorted _ _ J1)))) as (f & p & Eb & Sb). rewrite Eb in H. cbn [bindr] in H.
    destruct f; cbn in H.
    + destruct (aget (its ix1) p) as [old| | |]; try discriminate. cbn [bindr] in H. change (index_no_dups old e' <? 0) with true in H. cbv iota in H. cbn [bindr] in H. change (index_no_dups old e' <? 0) with true in H. cbv iota in H.
      apply Ok_inj in H. injection H as <- <-. cbn [i_next i_ents]. split; [exact N1|]. intros y Hy. left. auto.
    + apply Ok_inj in H. injection H as <- <-. cbn [i_next i_ents items]. split; [exact N1|]. intros y Hy. apply in_app_or in Hy. assert (Q : y = e' \/ In y (its ix1)).
      { destruct Hy as [Hy|[Hy|Hy]]; [right|left; now symmetry|right].
        - rewrite <- (firstn_skipn p (its ix1)). apply in_or_app. auto.
        - rewrite <- (firstn_skipn p (its ix1)). apply in_or_app. auto. }
      destruct Q as [->|Q]; [|left; auto]. right. cbn [e_path e_stage e_mode e_ptr e']. auto 6.
Qed.
Lemma insert_all_follows base : forall es ix st c ix', inv false ix -> 1 <= st ->
  (forall e, In e (src_entries es) -> (i_next base <= e_ptr e)%nat /\ (e_ptr e < i_next ix)%nat /\ ~ In (e_ptr e) (map e_ptr (its ix))) -> NoDup (map e_ptr (src_entries es)) ->
  follows base ix -> insert_all false ix es st = Ok (c, ix') -> follows base ix'.
Proof.
  induction es as [|[[e b]|] es IH]; intros ix st c ix' Hi Hst Hsrc Hnd Fo H; cbn [insert_all] in H.
  - apply Ok_inj in H. injection H as _ <-. auto.
  - set (e1 := IndexModel.mke (e_ptr e) (e_path e) st (e_mode e) (e_data e)) in *. destruct (Hsrc e ltac:(left; reflexivity)) as (Hp0 & Hp1 & Hp2).
    destruct (insert_spec false ix e1 b Hi ltac:(cbn; lia) Hp1 Hp2) as (c1 & ix1 & E1 & J1 & N1 & Fno & Fyes). rewrite E1 in H. cbn [bindr] in H.
    destruct (insert_new ix e1 b c1 ix1 Hi ltac:(cbn; lia) E1) as [N1' New].
    assert (Fo1 : follows base ix1).
    { destruct Fo as [Fn Fo]. split; [lia|]. intros y Hy. destruct (New y Hy) as [Hy'|(_ & Y1 & Y2 & Y3 & Y4)]; [auto|]. right. cbn [e1 e_path e_stage e_mode e_ptr] in *. split; [lia|]. split; [eauto|]. destruct Y4 as [->|(z & Hz & Z1 & Z2 & Z3)]; [auto|].
      destruct (Fo z Hz) as [Hz'|(_ & _ & [L|(z' & Hz' & Z4 & Z5)])]; [right; exists z; split; auto; split; auto; congruence|left; congruence|right; exists z'; split; auto; split; congruence]. }
    destruct (c1 <? 0) eqn:Ec; [apply Ok_inj in H; injection H as _ <-; auto|]. cbn [src_entries flat_map app map] in Hnd. inversion Hnd as [|? ? Hnd1 Hnd2]; subst. apply (IH ix1 (st + 1) c ix' J1 ltac:(lia)); auto.
    intros e2 He2. destruct (Hsrc e2 ltac:(right; exact He2)) as (Q0 & Q1 & Q2). split; auto. split; [lia|]. intros Q3. apply in_map_iff in Q3. destruct Q3 as (y & Ey & Hy). destruct (New y Hy) as [Hy'|(_ & _ & _ & _ & [Y|(z & Hz & Z1 & _)])].
    + apply Q2. rewrite <- Ey. now apply in_map.
    + apply Hnd1. cbn [e1 e_ptr] in Y. rewrite <- Y, Ey. now apply in_map.
    + apply Q2. rewrite <- Ey, <- Z1. now apply in_map.
  - apply (IH ix (st + 1) c ix'); auto. lia.
Qed.

Lemma gone_or old new x : In x old -> In (e_path x) (gone old new) \/ exists y, In y new /\ e_ptr y = e_ptr x.
Proof.
  intros Hx. destruct (existsb (fun y => (e_ptr y =? e_ptr x)%nat) new) eqn:E.
  - right. apply existsb_exists in E. destruct E as (y & Hy & Ey). apply Nat.eqb_eq in Ey. eauto.
  - left. unfold gone. apply in_map. apply filter_In. split; auto. now rewrite E.
Qed.
Definition changed (o : iop) (c : Z) (ix ix' : index) : Prop :=
  (forall x, In x (its ix) -> e_stage x = 0 -> In x (its ix') \/ In (e_path x) (touched o c (its ix) (its ix'))) /\
  (forall x, In x (its ix') -> e_stage x = 0 -> In x (its ix) \/ In (e_path x) (touched o c (its ix) (its ix'))) /\
  (forall x, In x (its ix') -> In x (its ix) \/ exists m, e_mode x = create_mode m).
Lemma entry_dec (x y : entry) : {x = y} + {x <> y}.
Proof. decide equality; auto using Z.eq_dec, Nat.eq_dec, (list_eq_dec Z.eq_dec). Qed.
Lemma follows_changed o c ix ix' : inv false ix -> follows ix ix' -> changed o c ix ix'.
Proof.
  intros Hi [Fn Fo]. split; [|split].
  - intros x Hx Sx. destruct (in_dec entry_dec x (its ix')) as [|Nx]; auto. right. unfold touched. apply in_or_app. left. destruct (gone_or (its ix) (its ix') x Hx) as [|(y & Hy & Ey)]; auto. exfalso. destruct (Fo y Hy) as [Hy'|(Sy & _ & [L|(z & Hz & Z1 & Z2)])].
    + assert (y = x) by (eapply nodup_ptr_eq; eauto; apply Hi). congruence.
    + pose proof (inv_next _ _ Hi x Hx). lia.
    + assert (z = x) by (eapply nodup_ptr_eq; eauto; [apply Hi|congruence]). congruence.
  - intros x Hx Sx. destruct (Fo x Hx) as [|(N & _)]; auto. contradiction.
  - intros x Hx. destruct (Fo x Hx) as [|(_ & M & _)]; auto.
Qed.
Lemma incl_follows ix ix' : i_next ix' = i_next ix -> incl (its ix') (its ix) -> follows ix ix'.
Proof. intros N H. split; [lia|]. auto. Qed.
Lemma step_change ix o c ix' : wf path_ok false ix -> op_ok o -> istep path_ok false ix o = Ok (c, ix') -> changed o c ix ix'.
Proof.
  intros [Hi Hw] Ho H. destruct o; cbn [istep op_ok] in *.
  - unfold index_add in H. assert (Same : forall j, i_ents j = i_ents ix -> changed (IAdd s) c ix j) by (intros j Ej; split; [|split]; rewrite Ej; auto).
    destruct (IndexModel.valid_filemode (s_mode s)); cbn [negb] in H; [|apply Ok_inj in H; injection H as <- <-; apply Same; auto]. unfold dup in H. destruct (path_ok (s_path s)); [|apply Ok_inj in H; injection H as <- <-; apply Same; auto].
    set (e := IndexModel.mke (i_next ix) (s_path s) (s_stage s) (s_mode s) (s_data s)) in *. set (ix0 := mki (i_ents ix) (i_map ix) (S (i_next ix))) in *. assert (Hi0 : inv false ix0) by (apply inv_raise; [exact Hi|lia]).
    destruct (insert_new ix0 e _ c ix' Hi0 ltac:(cbn; lia) H) as [N New]. change (its ix0) with (its ix) in New. cbn [e e_path e_stage e_mode e_ptr] in New.
    split; [|split].
    + intros x Hx Sx. destruct (in_dec entry_dec x (its ix')) as [|Nx]; auto. right. unfold touched. apply in_or_app. destruct (gone_or (its ix) (its ix') x Hx) as [|(y & Hy & Ey)]; auto. right.
      destruct (New y Hy) as [Hy'|(-> & Y1 & Y2 & _ & [L|(z & Hz & Z1 & Z2 & _)])].
      * assert (y = x) by (eapply nodup_ptr_eq; eauto; apply Hi). congruence.
      * pose proof (inv_next _ _ Hi x Hx). lia.
      * assert (z = x) by (eapply nodup_ptr_eq; eauto; [apply Hi|congruence]). subst z. change (0 =? 0) with true. cbv iota. left. auto.
    + intros x Hx Sx. destruct (New x Hx) as [|(-> & Y1 & _)]; auto. right. unfold touched. apply in_or_app. right. change (0 =? 0) with true. cbv iota. left. auto.
    + intros x Hx. destruct (New x Hx) as [|(_ & _ & _ & M & _)]; eauto.
  - apply follows_changed; auto. destruct (remove_spec false ix path stage Hi Ho) as (c2 & ix2 & E & J & N & M & _). rewrite E in H. apply Ok_inj in H. injection H as _ <-. apply incl_follows; auto. intros x Hx. now apply M.
  - apply follows_changed; auto. destruct (remove_dir_spec false ix dir stage Hi) as (ix2 & E & (J & N & M & _) & _). rewrite E in H. apply Ok_inj in H. injection H as _ <-. apply incl_follows; auto.
  - apply follows_changed; auto. unfold conflict_add in H. set (l := [a; o; t]) in *. assert (Self : follows ix ix) by (split; auto).
    destruct (dup_all_spec path_ok l ix) as [(E & _)|(es & n & E & L & F & P & D)]; rewrite E in H; [apply Ok_inj in H; injection H as _ <-; auto|].
    assert (Self2 : follows ix (mki (i_ents ix) (i_map ix) n)) by (split; cbn; auto). assert (Hi1 := inv_raise false ix n Hi L).
    destruct (forallb _ es); [|apply Ok_inj in H; injection H as _ <-; auto].
    destruct (remove_all0_spec false es _ Hi1) as (ix2 & E2 & J2 & N2 & M2). rewrite E2 in H. cbn [bindr] in H. change (negb (0 =? 0)) with false in H. cbv iota in H. cbn [i_next] in N2.
    apply (insert_all_follows ix es ix2 1 c ix' J2 ltac:(lia)) in H; auto.
    + intros e He. specialize (P e He). split; [lia|]. split; [lia|]. intros Q. apply in_map_iff in Q. destruct Q as (y & Ey & Hy). apply M2 in Hy. destruct Hy as [Hy _]. cbn in Hy. pose proof (inv_next _ _ Hi y Hy). lia.
    + split; [lia|]. intros y Hy. apply M2 in Hy. left. apply Hy.
  - apply follows_changed; auto. destruct (conflict_remove_spec false ix path Hi) as (c2 & ix2 & E & J & N & M). rewrite E in H. apply Ok_inj in H. injection H as _ <-. apply incl_follows; auto. intros x Hx. now apply M.
  - apply follows_changed; auto. apply Ok_inj in H. injection H as _ <-. apply incl_follows; auto. intros x [].
Qed.
Lemma create_file m : ~ isdir (create_mode m).
Proof. unfold create_mode, isdir. repeat match goal with |- context [if ?b then _ else _] => destruct b end; vm_compute; discriminate. Qed.

(** *** The invariant *)
Context (Hpath : forall p, path_ok p = true -> plain p).
Definition stage0 (ix : index) : list entry := filter (fun e => e_stage e =? 0) (its ix).
Record winv (w : wstate) : Prop := {
  wi_wf : wf path_ok false (w_ix w);
  wi_mode : forall e, In e (its (w_ix w)) -> exists m, e_mode e = create_mode m;
  wi_cache : forall t, w_cache w = Some t -> find_child (c_kids t) [] = None /\ rightly (stage0 (w_ix w)) (w_odb w) [] t }.
Lemma standing_ext ents ents' st d oid : (forall e, indir d (e_path e) -> (In e ents <-> In e ents')) -> standing ents st d oid -> standing ents' st d oid.
Proof.
  intros Q (es & D & H). exists es. split; auto. intros p m o. rewrite H. split; intros (e & He & Ep & R); exists e; (split; [apply Q; auto; rewrite Ep; now exists p|auto]).
Qed.
Lemma in_stage0 ix e : In e (stage0 ix) <-> In e (its ix) /\ e_stage e = 0.
Proof. unfold stage0. rewrite filter_In, Z.eqb_eq. reflexivity. Qed.

Lemma index_step w o c ix' : winv w -> op_ok o -> istep path_ok false (w_ix w) o = Ok (c, ix') ->
  winv (mkw ix' (match o with IClear => None | _ => fold_left invalidate_path (touched o c (its (w_ix w)) (its ix')) (w_cache w) end) (w_odb w)).
Proof.
  intros [W M C] Ho H. destruct (step_change _ _ _ _ W Ho H) as (Ch1 & Ch2 & Ch3). destruct (step_spec path_ok false _ o W Ho) as (c2 & ix2 & E & W'). rewrite E in H. apply Ok_inj in H. injection H as -> ->.
  constructor; cbn [w_ix w_cache w_odb].
  - exact W'.
  - intros e He. destruct (Ch3 e He) as [He'|Q]; auto.
  - intros t Ht. assert (Ht' : fold_left invalidate_path (touched o c (its (w_ix w)) (its ix')) (w_cache w) = Some t) by (destruct o; auto; discriminate). clear Ht.
    destruct (w_cache w) as [t0|] eqn:Ec; [|rewrite fold_invalidate_none in Ht'; discriminate]. destruct (C t0 eq_refl) as [C1 C2]. split; [eapply empty_child_touched; eauto|].
    intros ds node Hds Hn Hp. destruct (cache_at_touched _ _ _ _ _ Ht' Hn) as (n0 & A & -> & Cnt & Not). assert (Nt : ~ exists p, In p (touched o c (its (w_ix w)) (its ix')) /\ prefixl ds (removelast (split 47 p))) by (intros Q; rewrite (Not Q) in Hp; lia).
    assert (Dir : forall e, path_ok (e_path e) = true -> indir (go_down [] ds) (e_path e) -> ~ In (e_path e) (touched o c (its (w_ix w)) (its ix'))).
    { intros e Pe Hi Q. apply Nt. exists (e_path e). split; auto. destruct (indir_parts _ _ (Hpath _ Pe) Hi) as (q & Eq). rewrite go_down_parts in Eq by auto. exists q. exact Eq. }
    apply (standing_ext (stage0 (w_ix w))); [|apply C2; auto; destruct Cnt; lia]. intros e Hi. rewrite !in_stage0. destruct W as [_ Pw], W' as [_ Pw']. split; intros [He Se]; split; auto.
    + destruct (Ch1 e He Se) as [|Q]; auto. destruct (Dir e (proj1 (Pw e He)) Hi Q).
    + destruct (Ch2 e He Se) as [|Q]; auto. destruct (Dir e (proj1 (Pw' e He)) Hi Q).
Qed.
Lemma right_mono ents st x d t : rightly ents st d t -> rightly ents (st ++ x) d t.
Proof. intros R ds node A B C. apply standing_mono. auto. Qed.
Lemma stage0_all ix : existsb (fun e => 0 <? e_stage e) (its ix) = false -> (forall e, In e (its ix) -> 0 <= e_stage e <= 3) -> stage0 ix = its ix /\ forall e, In e (its ix) -> e_stage e = 0.
Proof.
  intros E Hb. assert (Z0 : forall e, In e (its ix) -> e_stage e = 0).
  { intros e He. destruct (Z.eq_dec (e_stage e) 0); auto. assert (existsb (fun e => 0 <? e_stage e) (its ix) = true) by (apply existsb_exists; exists e; split; auto; specialize (Hb e He); lia). congruence. }
  split; auto. unfold stage0. clear - Z0. induction (its ix) as [|e l IH]; cbn; auto. rewrite (Z0 e (or_introl eq_refl)). cbn. f_equal. apply IH. intros; apply Z0; now right.
Qed.
Notation write_index := (write_index nhash name_ok sz oid_of id_of obj_ok).
Notation rebuild := (rebuild nhash name_ok sz oid_of id_of obj_ok).
Lemma rebuild_store w c oid w' : rebuild false w = Ok (c, oid, w') -> (exists x, w_odb w' = w_odb w ++ x) /\ w_ix w' = w_ix w.
Proof.
  unfold WtreeModel.rebuild. cbn [bindr items]. intros H. destruct (write_root _ _ _ _ _ _ _ _) as [[r st]| | |] eqn:E; try discriminate. cbn [bindr] in H. destruct (root_store _ _ _ _ _ _ _ _ _ _ E) as (x & ->).
  destruct r as [[o j]|]; [|apply Ok_inj in H; injection H as _ _ <-; cbn; eauto]. destruct (open_tree _ o); [|apply Ok_inj in H; injection H as _ _ <-; cbn; eauto].
  destruct (read_cache _ _ _ _ _ _ _); try discriminate; apply Ok_inj in H; injection H as _ _ <-; cbn; eauto.
Qed.
Lemma write_store w c oid w' : write_index false w = Ok (c, oid, w') -> (exists x, w_odb w' = w_odb w ++ x) /\ w_ix w' = w_ix w.
Proof.
  unfold WtreeModel.write_index. assert (Self : exists x, w_odb w = w_odb w ++ x) by (exists []; now rewrite app_nil_r). intros H. destruct (existsb _ _); [apply Ok_inj in H; injection H as _ _ <-; auto|].
  destruct (w_cache w) as [t|]; [destruct (0 <=? c_count t)|]; try (eapply rebuild_store; exact H). apply Ok_inj in H; injection H as _ _ <-; auto.
Qed.
Lemma root_standing w st o j : winv w -> collision_free (its (w_ix w)) -> 4 + 4 * (Z.of_nat (length (its (w_ix w))) + 1) <= 2 ^ 30 -> (forall e, In e (its (w_ix w)) -> e_stage e = 0) -> stage0 (w_ix w) = its (w_ix w) -> nocoll st ->
  write_root nhash name_ok oid_of id_of obj_ok (its (w_ix w)) (w_cache w) (w_odb w) = Ok (Some (o, j), st) -> standing (its (w_ix w)) st [] o.
Proof.
  intros [[Hi Pw] M C] Cf Cap Z0 S0 Nc E.
  eapply (root_ok nhash name_ok sz oid_of id_of obj_ok Hslash Hid Hoid (its (w_ix w)) (w_cache w)); [| | | | | | |exact Nc|exact E].
  - intros i j0 a b Hij Ha Hb. pose proof (proj1 (ss_nth false _) (inv_sorted _ _ Hi) i j0 a b Hij Ha Hb) as Q. destruct Q as [Q|[_ Q]]; [now rewrite !folded_false in Q|]. rewrite (Z0 a), (Z0 b) in Q by (eapply nth_error_In; eauto). lia.
  - intros e He. apply Hpath. now apply Pw.
  - intros a b Ha Hb. apply Cf; auto. rewrite (Z0 a), (Z0 b); auto.
  - intros e He. destruct (M e He) as (m & ->). apply create_file.
  - exact Cap.
  - intros t Ht. now apply C.
  - intros d node Nd Td Hg Hp. unfold cache_get in Hg. destruct (w_cache w) as [t|] eqn:Ec; [|discriminate]. destruct (C t eq_refl) as [_ R]. rewrite S0 in R. assert (Pd : parts d = split 47 d) by (destruct d; [congruence|reflexivity]).
        specialize (R (split 47 d) node). rewrite <- Pd, go_down_tidy in R by auto. apply R; auto; [now apply tidy_clean|now rewrite Pd].
Qed.
Lemma write_ok w c oid w' : winv w -> collision_free (its (w_ix w)) -> 4 + 4 * (Z.of_nat (length (its (w_ix w))) + 1) <= 2 ^ 30 -> nocoll (w_odb w') -> write_index false w = Ok (c, oid, w') ->
  winv w' /\ (c = 0 -> standing (its (w_ix w)) (w_odb w') [] oid).
Proof.
  intros [W M C] Cf Cap Nc H. destruct (write_store _ _ _ _ H) as [(x & Ex) Ei]. unfold WtreeModel.write_index in H.
  destruct (existsb _ _) eqn:Eu; [apply Ok_inj in H; injection H as <- <- <-; split; [constructor; auto|discriminate]|].
  destruct (stage0_all _ Eu (fun e He => proj2 (proj2 W e He))) as [S0 Z0].
  assert (Re : rebuild false w = Ok (c, oid, w') -> winv w' /\ (c = 0 -> standing (its (w_ix w)) (w_odb w') [] oid)).
  { clear H. intros H. unfold WtreeModel.rebuild in H. cbn [bindr items] in H. destruct (write_root _ _ _ _ _ _ _ _) as [[r st]| | |] eqn:E; try discriminate. cbn [bindr] in H.
    assert (None_ok : winv (mkw (w_ix w) None st)) by (constructor; cbn [w_ix w_cache w_odb]; auto; discriminate).
    destruct r as [[o j]|]; [|apply Ok_inj in H; injection H as <- <- <-; split; [auto|discriminate]].
    assert (St : st = w_odb w'). { destruct (open_tree st o); [|apply Ok_inj in H; injection H as _ _ <-; auto]. destruct (read_cache _ _ _ _ _ _ _); try discriminate; apply Ok_inj in H; injection H as _ _ <-; auto. }
    assert (Sd : standing (its (w_ix w)) st [] o) by (eapply root_standing; eauto; [constructor; auto|rewrite St; exact Nc]).
    destruct (open_tree st o) as [es|] eqn:Eo; [|apply Ok_inj in H; injection H as <- <- <-; split; [auto|discriminate]].
    assert (D : deep st o es) by (destruct Sd as (es' & D & _); pose proof (deep_open _ _ _ _ _ D); congruence).
    destruct (read_cache _ _ _ _ _ _ _) as [t| | |] eqn:Er; try discriminate; apply Ok_inj in H; injection H as <- <- <-.
    - split; [|auto]. constructor; cbn [w_ix w_cache w_odb]; [exact W|exact M|]. intros t' Ht. injection Ht as <-. destruct (read_cache_ok _ _ _ _ _ _ _ _ Er Sd D) as (A & B & _). rewrite S0. auto.
    - split; [auto|]. intros ->. exact Sd. }
  destruct (w_cache w) as [t|] eqn:Ec; [|now apply Re]. destruct (0 <=? c_count t) eqn:Et; [|now apply Re]. apply Ok_inj in H. injection H as <- <- <-. split; [constructor; auto; rewrite Ec; auto|]. intros _.
  destruct (C t eq_refl) as [_ R]. rewrite S0 in R. apply (R [] t); [constructor|reflexivity|lia].
Qed.

Notation wstep := (wstep nhash name_ok sz oid_of id_of obj_ok path_ok false).
Notation wrun := (wrun nhash name_ok sz oid_of id_of obj_ok path_ok false).
Definition wop_ok (o : wop) : Prop := match o with WIndex o => op_ok o | _ => True end.
Lemma wstep_store w o c oid w' : wstep w o = Ok (c, oid, w') -> exists x, w_odb w' = w_odb w ++ x.
Proof.
  assert (Self : exists x, w_odb w = w_odb w ++ x) by (exists []; now rewrite app_nil_r).
  destruct o as [o| |b]; cbn [WtreeModel.wstep]; intros H; [|now apply write_store in H|apply Ok_inj in H; injection H as _ _ <-; cbn; eauto].
  destruct (istep _ _ _ _) as [[c2 ix2]| | |]; try discriminate. cbn [bindr] in H. apply Ok_inj in H. injection H as _ _ <-. auto.
Qed.
Lemma wrun_store : forall ops w w', wrun w ops = Ok w' -> exists x, w_odb w' = w_odb w ++ x.
Proof.
  induction ops as [|o ops IH]; intros w w' H; cbn [WtreeModel.wrun] in H; [apply Ok_inj in H; subst; exists []; now rewrite app_nil_r|].
  destruct (wstep w o) as [[[c oid] w1]| | |] eqn:E; try discriminate. cbn [bindr snd] in H. destruct (wstep_store _ _ _ _ _ E) as (x & Ex). destruct (IH _ _ H) as (y & ->). exists (x ++ y). now rewrite Ex, app_assoc.
Qed.
Definition calm (ix : index) : Prop := collision_free (its ix) /\ Z.of_nat (length (its ix)) < 2 ^ 28 - 1.
Lemma wstep_ok w o c oid w' : winv w -> wop_ok o -> calm (w_ix w) -> nocoll (w_odb w') -> wstep w o = Ok (c, oid, w') -> winv w'.
Proof.
  intros I Ho [Cf Cap] Nc H. destruct o as [o| |b]; cbn [WtreeModel.wstep wop_ok] in *.
  - destruct (istep _ _ _ _) as [[c2 ix2]| | |] eqn:E; try discriminate. cbn [bindr] in H. apply Ok_inj in H. injection H as _ _ <-. now apply (index_step w o c2 ix2).
  - apply (write_ok w c oid w'); auto. lia.
  - apply Ok_inj in H. injection H as _ _ <-. destruct I as [A B C]. constructor; cbn [w_ix w_cache w_odb]; auto. intros t Ht. destruct (C t Ht) as [C1 C2]. split; auto. now apply right_mono.
Qed.
Lemma wrun_ok : forall ops w w', winv w -> Forall wop_ok ops -> (forall k v, wrun w (firstn k ops) = Ok v -> calm (w_ix v)) -> nocoll (w_odb w') -> wrun w ops = Ok w' -> winv w'.
Proof.
  induction ops as [|o ops IH]; intros w w' I Ho Ca Nc H; cbn [WtreeModel.wrun] in H; [apply Ok_inj in H; now subst|]. inversion Ho as [|? ? Ho1 Ho2]; subst.
  destruct (wstep w o) as [[[c oid] w1]| | |] eqn:E; try discriminate. cbn [bindr snd] in H. destruct (wrun_store _ _ _ H) as (y & Ey).
  apply (IH w1 w'); auto.
  - apply (wstep_ok w o c oid w1); auto; [apply (Ca 0%nat w); reflexivity|]. rewrite Ey in Nc. now apply nocoll_app in Nc.
  - intros k v Hv. apply (Ca (S k) v). cbn [firstn WtreeModel.wrun]. rewrite E. cbn [bindr snd]. exact Hv.
Qed.
End State.
