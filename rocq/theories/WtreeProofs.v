(** The paths of an index, the cache of tree ids, and trees that stand for a directory. *)
From Verif Require Import Base Arr Str CStr VectorModel HashModel StrMap IndexModel IndexSpec TreeModel TreeSpec TreeProofs TreeBuild TreeProps WtreeModel WtreeSpec.
From Coq Require Import Sorting.Sorted.

(** *** Paths *)
Definition pre (d : list Z) : list Z := match d with [] => [] | _ => d ++ [47] end.
Definition indir (d p : list Z) : Prop := exists r, p = pre d ++ r.
Definition parts (d : list Z) : list (list Z) := match d with [] => [] | _ => split 47 d end.
Definition tidy (d : list Z) : Prop := Forall (fun c => c <> []) (parts d).

Lemma pre_ne d : d <> [] -> pre d = d ++ [47]. Proof. destruct d; [congruence|reflexivity]. Qed.
Lemma prefixb_app (a b : list Z) : prefixb a (a ++ b) = true. Proof. apply prefixb_spec. now exists b. Qed.
Lemma outside_spec d p : outside d p = false <-> indir d p.
Proof.
  unfold outside, indir. destruct d as [|c d].
  - cbn. split; eauto.
  - set (x := c :: d). rewrite (pre_ne x) by discriminate. replace (leqb x []) with false by reflexivity. cbn [negb andb]. rewrite orb_false_iff, !negb_false_iff, prefixb_spec, Z.eqb_eq. split.
    + intros [[v ->] H]. destruct v as [|y v].
      * rewrite app_nil_r in H. rewrite nth_overflow in H by lia. discriminate.
      * rewrite app_nth2, Nat.sub_diag in H by lia. cbn in H. subst y. exists v. now rewrite <- app_assoc.
    + intros [r ->]. rewrite <- app_assoc. cbn [app]. split; [now exists (47 :: r)|]. rewrite app_nth2, Nat.sub_diag by lia. reflexivity.
Qed.
Lemma plain_ne p : plain p -> p <> []. Proof. intros (_ & H & _) ->. cbn in H. inversion H. congruence. Qed.
Lemma split_pre d r : d <> [] -> split 47 (d ++ 47 :: r) = split 47 d ++ split 47 r.
Proof.
  intros _. induction d as [|c d IH]; [cbn; now destruct (split 47 r)|]. cbn [app split]. destruct (Z.eqb_spec c 47).
  - cbn [app]. now rewrite IH.
  - rewrite IH. destruct (split 47 d) eqn:E; [destruct (split_nonnil _ _ E)|]. reflexivity.
Qed.
Lemma parts_pre d r : r <> [] -> parts (pre d ++ r) = parts d ++ split 47 r.
Proof.
  intros Nr. destruct d as [|c d]; [cbn [pre app parts]; destruct r; [congruence|reflexivity]|]. set (x := c :: d). rewrite pre_ne by discriminate. rewrite <- app_assoc. cbn [app].
  change (parts x) with (split 47 x). rewrite <- (split_pre x r) by discriminate. reflexivity.
Qed.
Lemma plain_parts p : plain p -> parts p = split 47 p. Proof. intros H. apply plain_ne in H. destruct p; [congruence|reflexivity]. Qed.
Lemma rest_ne d r : plain (pre d ++ r) -> r <> [].
Proof.
  intros Hp ->. destruct Hp as (_ & H & _). rewrite app_nil_r in H. destruct d as [|c d]; [cbn in H; inversion H; congruence|]. rewrite pre_ne in H by discriminate.
  rewrite split_pre in H by discriminate. apply Forall_app in H. destruct H as [_ H]. cbn in H. inversion H. congruence.
Qed.
Lemma rest_split d r : plain (pre d ++ r) -> Forall (fun c => c <> []) (split 47 r).
Proof.
  intros Hp. pose proof (rest_ne _ _ Hp) as N. pose proof (parts_pre d r N) as E. rewrite plain_parts in E by auto. destruct Hp as (_ & H & _). rewrite E in H. now apply Forall_app in H.
Qed.
Lemma below_spec d r : plain (pre d ++ r) -> below d (pre d ++ r) = r.
Proof.
  intros Hp. unfold below. destruct d as [|c d].
  - cbn [pre app length skipn]. pose proof (rest_split [] r Hp) as H. destruct r as [|c r]; [reflexivity|]. destruct (Z.eqb_spec c 47); [|reflexivity]. subst c. cbn in H. inversion H. congruence.
  - set (x := c :: d). rewrite pre_ne by discriminate. rewrite <- app_assoc. rewrite skipn_app, skipn_all, Nat.sub_diag. reflexivity.
Qed.
Lemma before_slash_spec r : match before_slash r with Some c => ~ In 47 c /\ exists t, r = c ++ 47 :: t | None => ~ In 47 r end.
Proof.
  induction r as [|c r IH]; cbn [before_slash]; [intros []|]. destruct (Z.eqb_spec c 47) as [->|N]; [split; [intros []|exists r; reflexivity]|].
  destruct (before_slash r) as [a|].
  - destruct IH as (Na & t & ->). split; [intros [|]; [congruence|contradiction]|exists t; reflexivity].
  - intros [|]; [congruence|contradiction].
Qed.
Lemma subdir_spec d c t : firstn (length (pre d ++ c ++ 47 :: t) - length (c ++ 47 :: t) + length c) (pre d ++ c ++ 47 :: t) = pre d ++ c.
Proof.
  rewrite app_length. replace (length (pre d) + length (c ++ 47%Z :: t) - length (c ++ 47%Z :: t) + length c)%nat with (length (pre d ++ c) + 0)%nat by (rewrite app_length; lia).
  rewrite app_assoc, firstn_app_2. cbn [firstn]. apply app_nil_r.
Qed.
Lemma last_split c : ~ In 47 c -> forall d, last_comp (pre d ++ c) = c.
Proof.
  intros N d. unfold last_comp. destruct d as [|x d]; [cbn [pre app]; rewrite split_nosep by auto; reflexivity|]. rewrite pre_ne by discriminate. rewrite <- app_assoc. change ([47] ++ c) with (47 :: c). rewrite split_pre by discriminate.
  rewrite (split_nosep _ c N), last_last. reflexivity.
Qed.
Lemma sub_ne d c : c <> [] -> pre d ++ c <> []. Proof. destruct c; [congruence|]. intros _ E. apply app_eq_nil in E. now destruct E. Qed.
Lemma pre_sub d c : c <> [] -> pre (pre d ++ c) = pre d ++ c ++ [47].
Proof. intros N. rewrite pre_ne by (now apply sub_ne). now rewrite <- app_assoc. Qed.
Lemma indir_sub d c p : c <> [] -> indir (pre d ++ c) p -> indir d p.
Proof. intros N [r ->]. rewrite pre_sub by auto. rewrite <- app_assoc. unfold indir. eauto. Qed.
Lemma tidy_sub d c : tidy d -> c <> [] -> ~ In 47 c -> tidy (pre d ++ c).
Proof. intros T N S. unfold tidy. rewrite parts_pre by auto. apply Forall_app. split; auto. rewrite split_nosep by auto. constructor; auto. Qed.
Lemma parts_sub d c : c <> [] -> ~ In 47 c -> parts (pre d ++ c) = parts d ++ [c].
Proof. intros N S. rewrite parts_pre by auto. now rewrite split_nosep. Qed.
(** A path is in a directory iff the parts of the directory come first among those before its last slash. *)
Lemma indir_parts d p : plain p -> indir d p -> exists q, removelast (split 47 p) = parts d ++ q.
Proof.
  intros Hp [r ->]. pose proof (rest_ne _ _ Hp) as N. rewrite <- plain_parts, parts_pre by auto. rewrite removelast_app by apply split_nonnil. eauto.
Qed.
Lemma nosep_inj (a b x y : list Z) : ~ In 47 a -> ~ In 47 b -> a ++ 47 :: x = b ++ 47 :: y -> a = b /\ x = y.
Proof.
  revert b. induction a as [|c a IH]; intros [|e b] Na Nb E; cbn in E.
  - injection E as ->. auto.
  - injection E as <- _. exfalso. apply Nb. now left.
  - injection E as -> _. exfalso. apply Na. now left.
  - injection E as -> E. destruct (IH b) as [-> ->]; auto; intros H; [apply Na|apply Nb]; now right.
Qed.

(** *** The cache *)
Definition prefixl (a b : list (list Z)) : Prop := exists q, b = a ++ q.
Lemma find_upd (kids : list tcache) d f n : (forall k, c_name (f k) = c_name k) ->
  find_child ((fix go l := match l with [] => [] | k :: l => if leqb (c_name k) d then f k :: l else k :: go l end) kids) n =
  match find_child kids n with Some k => Some (if leqb n d then f k else k) | None => None end.
Proof.
  intros Hf. unfold find_child. induction kids as [|k kids IH]; [reflexivity|]. cbn [find]. destruct (leqb (c_name k) d) eqn:E.
  - apply leqb_spec in E. cbn [find]. rewrite Hf, E. destruct (leqb d n) eqn:F.
    + apply leqb_spec in F. subst n. now rewrite leqb_refl.
    + destruct (find _ kids) as [k'|] eqn:G; [|reflexivity]. apply find_some in G. destruct G as [_ G]. destruct (leqb n d) eqn:H; [|reflexivity]. apply leqb_spec in H. subst n. rewrite leqb_refl in F. discriminate.
  - cbn [find]. destruct (leqb (c_name k) n) eqn:F; [|exact IH]. apply leqb_spec in F. subst n. now rewrite E.
Qed.
Lemma invalidate_name t ds : c_name (invalidate t ds) = c_name t. Proof. destruct t, ds; reflexivity. Qed.
Lemma cache_at_invalidate : forall ds t q node', cache_at (invalidate t q) ds = Some node' ->
  exists node, cache_at t ds = Some node /\ c_oid node' = c_oid node /\ (c_count node' = c_count node \/ c_count node' = -1) /\ (prefixl ds q -> c_count node' = -1).
Proof.
  induction ds as [|d ds IH]; intros t q node' H.
  - cbn in H. injection H as <-. exists t. split; [reflexivity|]. destruct t, q; cbn; auto.
  - cbn [cache_at] in *. destruct t as [n c o kids]. destruct q as [|x q]; cbn [invalidate c_kids] in H.
    + destruct (find_child kids d) as [k|] eqn:E; [|discriminate]. exists node'. cbn [c_kids]. rewrite E. split; auto. split; auto. split; auto. intros [r Hr]. discriminate.
    + rewrite (find_upd kids x (fun k => invalidate k q)) in H by (intros; apply invalidate_name). cbn [c_kids]. destruct (find_child kids d) as [k|] eqn:E; [|discriminate]. destruct (leqb d x) eqn:F.
      * apply leqb_spec in F. subst x. destruct (IH _ _ _ H) as (node & A & B & C & D). exists node. do 3 (split; auto). intros [r Hr]. injection Hr as Hr. apply D. now exists r.
      * exists node'. do 2 (split; auto). split; auto. intros [r Hr]. injection Hr as Hr _. subst x. rewrite leqb_refl in F. discriminate.
Qed.
Lemma fold_invalidate_none ps : fold_left invalidate_path ps None = None. Proof. induction ps; auto. Qed.
Lemma cache_at_touched : forall ps t t' ds node', fold_left invalidate_path ps (Some t) = Some t' -> cache_at t' ds = Some node' ->
  exists node, cache_at t ds = Some node /\ c_oid node' = c_oid node /\ (c_count node' = c_count node \/ c_count node' = -1) /\
    ((exists p, In p ps /\ prefixl ds (removelast (split 47 p))) -> c_count node' = -1).
Proof.
  induction ps as [|p ps IH]; intros t t' ds node' E H; cbn [fold_left] in E.
  - injection E as <-. exists node'. do 2 (split; auto). split; auto. intros (? & [] & _).
  - cbn [invalidate_path option_map] in E. destruct (IH _ _ _ _ E H) as (n1 & A & B & C & D). destruct (cache_at_invalidate _ _ _ _ A) as (n2 & A2 & B2 & C2 & D2).
    exists n2. split; auto. split; [congruence|]. split; [destruct C, C2; intuition congruence|]. intros (x & [<-|Hx] & Hp).
    + destruct C as [C|C]; auto. rewrite C. auto.
    + apply D. eauto.
Qed.
Lemma fold_touched_some ps : forall t, exists t', fold_left invalidate_path ps (Some t) = Some t'.
Proof. induction ps as [|p ps IH]; intros t; [eexists; reflexivity|]. cbn. apply IH. Qed.
Lemma empty_child_invalidate t q : find_child (c_kids t) [] = None -> find_child (c_kids (invalidate t q)) [] = None.
Proof.
  intros H. destruct t as [n c o kids], q as [|x q]; [exact H|]. cbn [invalidate c_kids] in *. rewrite (find_upd kids x (fun k => invalidate k q)) by (intros; apply invalidate_name). now rewrite H.
Qed.
Lemma empty_child_touched ps : forall t t', fold_left invalidate_path ps (Some t) = Some t' -> find_child (c_kids t) [] = None -> find_child (c_kids t') [] = None.
Proof. induction ps as [|p ps IH]; intros t t' E H; cbn in E; [injection E as <-; auto|]. apply (IH _ _ E). now apply empty_child_invalidate. Qed.

(** *** Trees that stand for a directory *)
Section Trees.
Context (sz : nat) (oid_of : list Z -> list Z).
Notation open_raw := (open_raw oid_of). Notation open_tree := (open_tree sz oid_of).
Definition fine_entry (e : tentry) : Prop := fine sz (te_name e) (te_attr e) (te_oid e) .
Inductive deep (st : odb) : list Z -> list tentry -> Prop :=
| deep_intro oid b es : open_raw st oid = Some b -> parse_raw sz b = Ok es -> tree_bytes es b -> canonical es -> NoDup (map te_name es) -> Forall fine_entry es ->
    (forall m n o, In (mkte m n o) es -> isdir m -> m = 16384 /\ exists sub, deep st o sub /\ exists p m' o', holds (open_tree st) sub p m' o') ->
    deep st oid es.
Fixpoint deep_ind' (st : odb) (P : list Z -> list tentry -> Prop)
  (H : forall oid b es, open_raw st oid = Some b -> parse_raw sz b = Ok es -> tree_bytes es b -> canonical es -> NoDup (map te_name es) -> Forall fine_entry es ->
    (forall m n o, In (mkte m n o) es -> isdir m -> m = 16384 /\ exists sub, deep st o sub /\ P o sub /\ exists p m' o', holds (open_tree st) sub p m' o') -> P oid es)
  oid es (D : deep st oid es) {struct D} : P oid es.
Proof.
  destruct D as [oid b es A B C E F G I]. apply (H oid b es A B C E F G). intros m n o Hin Hd. destruct (I m n o Hin Hd) as (Em & sub & D & X). split; [exact Em|]. exists sub. split; [exact D|]. split; [|exact X]. exact (deep_ind' st P H o sub D).
Defined.
Lemma deep_open st oid es : deep st oid es -> open_tree st oid = Some es.
Proof. intros D. destruct D as [oid b es A B]. unfold WtreeModel.open_tree. now rewrite A, B. Qed.
Lemma raw_id st id b : open_raw st id = Some b -> oid_of b = id /\ In b st.
Proof. intros H. apply find_some in H. destruct H as [H1 H2]. apply leqb_spec in H2. auto. Qed.
Lemma raw_mono st x id b : open_raw st id = Some b -> open_raw (st ++ x) id = Some b.
Proof. unfold WtreeModel.open_raw. induction st as [|a st IH]; cbn; [discriminate|]. destruct (leqb (oid_of a) id); auto. Qed.
Lemma open_mono st x id es : open_tree st id = Some es -> open_tree (st ++ x) id = Some es.
Proof. unfold WtreeModel.open_tree. destruct (open_raw st id) as [b|] eqn:E; [|discriminate]. now rewrite (raw_mono _ x _ _ E). Qed.
Lemma holds_mono st x es p m o : holds (open_tree st) es p m o -> holds (open_tree (st ++ x)) es p m o.
Proof. induction 1; [now constructor|]. eapply h_below; eauto. now apply open_mono. Qed.
Lemma holds_back st x oid es p m o : deep st oid es -> holds (open_tree (st ++ x)) es p m o -> holds (open_tree st) es p m o.
Proof.
  intros D. revert p m o. induction D as [oid b es A B C E F G I] using deep_ind'. intros p m o H. inversion H as [? m0 n0 o0 Hin Hd|? m0 n0 o0 sub p0 m' o' Hin Hd Ho Hs]; subst.
  - now constructor.
  - destruct (I _ _ _ Hin Hd) as (_ & sub' & D & J & _). pose proof (open_mono st x _ _ (deep_open _ _ _ D)) as Q. rewrite Q in Ho. injection Ho as <-. eapply h_below; eauto. now apply deep_open.
Qed.
Lemma deep_mono st x oid es : deep st oid es -> deep (st ++ x) oid es.
Proof.
  intros D. induction D as [oid b es A B C E F G I] using deep_ind'. econstructor; eauto using raw_mono. intros m n o Hin Hd. destruct (I _ _ _ Hin Hd) as (Em & sub & D & J & p & m' & o' & Hh). split; auto. exists sub. split; auto. exists p, m', o'. now apply holds_mono.
Qed.
Lemma deep_inv st oid es : deep st oid es -> exists b, open_raw st oid = Some b /\ parse_raw sz b = Ok es /\ tree_bytes es b /\ canonical es /\ NoDup (map te_name es) /\ Forall fine_entry es /\
  (forall m n o, In (mkte m n o) es -> isdir m -> m = 16384 /\ exists sub, deep st o sub /\ exists p m' o', holds (open_tree st) sub p m' o').
Proof. intros D. destruct D as [oid b es A B C E F G I]. eauto 10. Qed.
Lemma fine_in es m n o : Forall fine_entry es -> In (mkte m n o) es -> n <> [] /\ ~ In 47 n.
Proof.
  intros F Hin. rewrite Forall_forall in F. destruct (F _ Hin) as (_ & Hs & Hl & _). cbn [te_name] in *. split; [|exact Hs]. intros ->. cbn in Hl. lia.
Qed.
Lemma deep_whole st oid es : deep st oid es -> whole (open_tree st) es.
Proof.
  intros D. induction D as [oid b es A B C E F G I] using deep_ind'. constructor.
  - clear - E. unfold canonical in E. intros i j a b Hij. revert i j Hij. induction E as [|x es E IH Hx]; intros [|i] [|j] Hij Ha Hb; cbn in *; try lia; try discriminate.
    + injection Ha as <-. apply nth_error_In in Hb. rewrite Forall_forall in Hx. apply (Hx _ Hb).
    + apply (IH i j); auto; lia.
  - auto.
  - intros m n o Hin. exact (fine_in _ _ _ _ G Hin).
  - intros m n o Hin Hd. destruct (I _ _ _ Hin Hd) as (Em & sub & D & J & X). split; auto. exists sub. split; [now apply deep_open|]. auto.
Qed.
Lemma holds_inv op es p m o : holds op es p m o -> (In (mkte m p o) es /\ ~ isdir m) \/
  (exists m0 n0 o0 sub q, p = n0 ++ 47 :: q /\ In (mkte m0 n0 o0) es /\ isdir m0 /\ op o0 = Some sub /\ holds op sub q m o).
Proof. intros H. destruct H; [left; auto|right]. do 5 eexists. split; [reflexivity|]. eauto. Qed.
(** The files below one entry. *)
Lemma name_unique es m n o m2 o2 : NoDup (map te_name es) -> In (mkte m n o) es -> In (mkte m2 n o2) es -> m = m2 /\ o = o2.
Proof.
  induction es as [|e es IH]; intros N H1 H2; [destruct H1|]. cbn in N. inversion N as [|? ? N1 N2]; subst. destruct H1 as [->|H1], H2 as [H2|H2].
  - injection H2 as -> ->. auto.
  - exfalso. apply N1. apply (in_map te_name) in H2. exact H2.
  - subst e. exfalso. apply N1. apply (in_map te_name) in H1. exact H1.
  - auto.
Qed.
Lemma holds_sub st oid es m n o sub p m' o' : deep st oid es -> In (mkte m n o) es -> isdir m -> open_tree st o = Some sub ->
  (holds (open_tree st) es (n ++ 47 :: p) m' o' <-> holds (open_tree st) sub p m' o').
Proof.
  intros D Hin Hd Ho. destruct (deep_inv _ _ _ D) as (b & _ & _ & _ & _ & N & F & I). split.
  - intros H. destruct (holds_inv _ _ _ _ _ H) as [(Hin' & Hd')|(m0 & n0 & o0 & sub' & p0 & E & Hin' & Hd' & Ho' & Hs)].
    + destruct (fine_in _ _ _ _ F Hin') as [_ S]. exfalso. apply S. apply in_or_app. right. now left.
    + destruct (fine_in _ _ _ _ F Hin) as [_ S]. destruct (fine_in _ _ _ _ F Hin') as [_ S']. apply nosep_inj in E; auto. destruct E as [-> ->].
      destruct (name_unique _ _ _ _ _ _ N Hin Hin') as [<- <-]. congruence.
  - intros H. change (n ++ 47 :: p) with (n ++ bs "/" ++ p). eapply h_below; eauto.
Qed.
Lemma holds_file st oid es n m o : deep st oid es -> ~ In 47 n -> holds (open_tree st) es n m o -> In (mkte m n o) es /\ ~ isdir m.
Proof.
  intros D S H. destruct (holds_inv _ _ _ _ _ H) as [(Hin' & Hd')|(m0 & n0 & o0 & sub' & p0 & E & Hin' & Hd' & Ho' & Hs)]; subst; auto. exfalso. apply S. apply in_or_app. right. now left.
Qed.
Lemma holds_dir st oid es n p m' o' : deep st oid es -> ~ In 47 n -> holds (open_tree st) es (n ++ 47 :: p) m' o' -> exists m o sub, In (mkte m n o) es /\ isdir m /\ open_tree st o = Some sub.
Proof.
  intros D S H. destruct (deep_inv _ _ _ D) as (b & _ & _ & _ & _ & N & F & I). destruct (holds_inv _ _ _ _ _ H) as [(Hin' & Hd')|(m0 & n0 & o0 & sub' & p0 & E & Hin' & Hd' & Ho' & Hs)].
  - destruct (fine_in _ _ _ _ F Hin') as [_ S']. exfalso. apply S'. apply in_or_app. right. now left.
  - destruct (fine_in _ _ _ _ F Hin') as [_ S']. apply nosep_inj in E; auto. destruct E as [-> ->]. exists m0, o0, sub'. auto.
Qed.
(** The id of such a tree is determined by its files. *)
Lemma deep_same st : forall oid es, deep st oid es -> forall st' oid' es', deep st' oid' es' -> (forall p m o, holds (open_tree st) es p m o <-> holds (open_tree st') es' p m o) -> oid = oid' /\ es = es'.
Proof.
  intros oid es D. induction D as [oid b es A B C E F G I] using deep_ind'. intros st' oid' es' D' Same.
  assert (D0 : deep st oid es). { econstructor; eauto. intros m n o Hin Hd. destruct (I m n o Hin Hd) as (Em & sub & D & _ & X). eauto. }
  destruct (deep_inv _ _ _ D') as (b' & A' & B' & C' & E' & F' & G' & I').
  assert (Ees : es = es').
  { apply canonical_unique; auto. intros [m n o]. split; intros Hin.
    - destruct (fine_in _ _ _ _ G Hin) as [Nn Sn]. destruct (Z.eq_dec (Z.land m 61440) 16384) as [Hd|Hd].
      + destruct (I _ _ _ Hin Hd) as (-> & sub & D & J & p & m' & o' & Hh). assert (Hf : holds (open_tree st') es' (n ++ 47 :: p) m' o'). { apply Same. change (n ++ 47 :: p) with (n ++ bs "/" ++ p). eapply h_below; eauto. now apply deep_open. }
        destruct (holds_dir _ _ _ _ _ _ _ D' Sn Hf) as (m2 & o2 & sub2 & Hin2 & Hd2 & Ho2). destruct (I' _ _ _ Hin2 Hd2) as (-> & sub2' & D2 & _). rewrite (deep_open _ _ _ D2) in Ho2. injection Ho2 as ->.
        destruct (J st' o2 sub2 D2) as [-> _]; auto. intros q m3 o3. rewrite <- (holds_sub st oid es _ n o sub q m3 o3 D0 Hin Hd (deep_open _ _ _ D)), <- (holds_sub st' oid' es' _ n o2 sub2 q m3 o3 D' Hin2 Hd2 (deep_open _ _ _ D2)). apply Same.
      + assert (Hf : holds (open_tree st') es' n m o) by (apply Same; now constructor). apply (holds_file _ _ _ _ _ _ D' Sn Hf).
    - destruct (fine_in _ _ _ _ G' Hin) as [Nn Sn]. destruct (Z.eq_dec (Z.land m 61440) 16384) as [Hd|Hd].
      + destruct (I' _ _ _ Hin Hd) as (-> & sub & D & p & m' & o' & Hh). assert (Hf : holds (open_tree st) es (n ++ 47 :: p) m' o'). { apply Same. change (n ++ 47 :: p) with (n ++ bs "/" ++ p). eapply h_below; eauto. now apply deep_open. }
        destruct (holds_dir _ _ _ _ _ _ _ D0 Sn Hf) as (m2 & o2 & sub2 & Hin2 & Hd2 & Ho2). destruct (I _ _ _ Hin2 Hd2) as (-> & sub2' & D2 & J & _). rewrite (deep_open _ _ _ D2) in Ho2. injection Ho2 as ->.
        destruct (J st' o sub D) as [-> _]; auto. intros q m3 o3. rewrite <- (holds_sub st oid es _ n o2 sub2 q m3 o3 D0 Hin2 Hd2 (deep_open _ _ _ D2)), <- (holds_sub st' oid' es' _ n o sub q m3 o3 D' Hin Hd (deep_open _ _ _ D)). apply Same.
      + assert (Hf : holds (open_tree st) es n m o) by (apply Same; now constructor). apply (holds_file _ _ _ _ _ _ D0 Sn Hf). }
  subst es'. split; auto. destruct (raw_id _ _ _ A) as [<- _]. destruct (raw_id _ _ _ A') as [<- _]. f_equal. apply (tree_bytes_unique (fun _ => 0%nat) (fun _ => false) (fun _ _ => true) ltac:(discriminate) es es); auto. reflexivity.
Qed.
End Trees.
