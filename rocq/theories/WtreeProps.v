(** C60 and C61: git_index_write_tree over any history of an index. *)
From Verif Require Import Base Arr Str CStr VectorModel VectorSpec VectorProofs HashModel StrMap IndexModel IndexSpec IndexProofs IndexMain TreeModel TreeSpec TreeProofs TreeBuild TreeProps WtreeModel WtreeSpec WtreeProofs WtreeMain WtreeState WtreeTotal ReflogProofs.

Section P.
Context (nhash : list Z -> nat) (name_ok path_ok : list Z -> bool) (sz : nat) (oid_of : list Z -> list Z) (id_of : Z -> list Z) (obj_ok : odb -> list Z -> Z -> bool).
(** The names a tree accepts have no slash, the paths an index accepts are plain, ids have one size. *)
Context (Hslash : forall n, name_ok n = true -> ~ In (ch "/") n) (Hpath : forall p, path_ok p = true -> plain p).
Context (Hid : forall x, length (id_of x) = sz) (Hoid : forall b, length (oid_of b) = sz).
Notation open_tree := (open_tree sz oid_of).
Notation write_index := (write_index nhash name_ok sz oid_of id_of obj_ok).
Notation wrun := (wrun nhash name_ok sz oid_of id_of obj_ok path_ok).

(** The index [w] after the calls [ops] (index operations, earlier writes of trees, others writing
    objects) starting from an empty index in a repository with the tree objects [st0]; the index was at
    no time both a file and a directory at one path, or enormous. *)
Definition no_two_same (st : odb) : Prop := forall a b, In a st -> In b st -> oid_of a = oid_of b -> a = b.
Definition history (st0 : odb) (ops : list wop) (w : wstate) : Prop :=
  Forall wop_ok ops /\ wrun false (mkw inew None st0) ops = Ok w /\
  forall k v, wrun false (mkw inew None st0) (firstn k ops) = Ok v -> collision_free (listing (w_ix v)) /\ Z.of_nat (length (listing (w_ix v))) < 2 ^ 28 - 1.
(** The index has a file [p] of this mode and id. *)
Definition indexed (ix : index) (p : list Z) (m : Z) (o : list Z) : Prop := exists e, In e (listing ix) /\ e_path e = p /\ e_mode e = m /\ id_of (e_data e) = o.

Lemma winv_new st0 : winv sz oid_of id_of path_ok (mkw inew None st0).
Proof. constructor; cbn [w_ix w_cache]; [split; [apply inv_new|intros e []]|intros e []|discriminate]. Qed.
Lemma history_inv st0 ops w : history st0 ops w -> no_two_same (w_odb w) -> winv sz oid_of id_of path_ok w /\ calm (w_ix w).
Proof.
  intros (Ho & Hr & Ca) Nc. split.
  - apply (wrun_ok nhash name_ok sz oid_of id_of obj_ok Hslash Hid Hoid path_ok Hpath ops (mkw inew None st0) w); auto. apply winv_new.
  - apply (Ca (length ops) w). rewrite firstn_all. exact Hr.
Qed.
Lemma history_standing st0 ops w c oid w' : history st0 ops w -> no_two_same (w_odb w') -> write_index false w = Ok (c, oid, w') -> c = 0 -> standing sz oid_of id_of (listing (w_ix w)) (w_odb w') [] oid.
Proof.
  intros H Nc E Hc. destruct (write_store _ _ _ _ _ _ _ _ _ _ E) as [(x & Ex) _]. destruct (history_inv _ _ _ H) as [I [Cf Cap]]; [rewrite Ex in Nc; now apply nocoll_app in Nc|].
  destruct (write_ok nhash name_ok sz oid_of id_of obj_ok Hslash Hid Hoid path_ok Hpath w c oid w' I Cf ltac:(lia) Nc E) as [_ S]. auto.
Qed.

(** The tree written has exactly the files of the index, in git's form, whatever the cache held.
    Partial: not when the index ignores case, has a path as file and directory, or is written to another
    repository; see the refutations. *)
Theorem C60_write_tree_partial st0 ops w oid w' : history st0 ops w -> write_index false w = Ok (0, oid, w') -> no_two_same (w_odb w') ->
  exists es, open_tree (w_odb w') oid = Some es /\ whole (open_tree (w_odb w')) es /\ forall p m o, holds (open_tree (w_odb w')) es p m o <-> indexed (w_ix w) p m o.
Proof.
  intros H E Nc. destruct (history_standing _ _ _ _ _ _ H Nc E eq_refl) as (es & D & Hh). exists es. split; [now apply deep_open|]. split; [eapply deep_whole; eauto|]. intros p m o. rewrite Hh. reflexivity.
Qed.
(** Writing changes no entry, removes no object, and refuses an index with conflicts. *)
Theorem C60_write_keeps st0 ops w c oid w' : history st0 ops w -> write_index false w = Ok (c, oid, w') ->
  w_ix w' = w_ix w /\ (exists new, w_odb w' = w_odb w ++ new) /\ ((exists e, In e (listing (w_ix w)) /\ 0 < e_stage e) -> c = -10 /\ w' = w).
Proof.
  intros _ E. destruct (write_store _ _ _ _ _ _ _ _ _ _ E) as [S I]. split; auto. split; auto. intros (e & He & Se). unfold WtreeModel.write_index in E.
  assert (Q : existsb (fun e => 0 <? e_stage e) (items (i_ents (w_ix w))) = true) by (apply existsb_exists; exists e; split; [exact He|lia]). rewrite Q in E. apply Ok_inj in E. injection E as <- _ <-. auto.
Qed.
(** It succeeds when every entry can be in a tree. *)
Theorem C60_write_succeeds st0 ops w :
  (forall st x id ty, obj_ok st id ty = true -> obj_ok (st ++ x) id ty = true) -> (forall st b, In b st -> obj_ok st (oid_of b) 2 = true) -> (forall b, forallb (fun c => c =? 0) (oid_of b) = false) ->
  history st0 ops w -> no_two_same (w_odb w) ->
  (forall e, In e (listing (w_ix w)) -> e_stage e = 0 /\ Forall (fun c => name_ok c = true) (split 47 (e_path e)) /\ forallb (fun b => b =? 0) (id_of (e_data e)) = false /\
     (e_mode e <> 57344 -> obj_ok (w_odb w) (id_of (e_data e)) (otype_from_mode (e_mode e)) = true)) ->
  (forall r st, write_root nhash name_ok oid_of id_of obj_ok (listing (w_ix w)) (w_cache w) (w_odb w) = Ok (r, st) -> no_two_same st) ->
  exists oid w', write_index false w = Ok (0, oid, w').
Proof.
  intros Hmono Htree Hzero H Nc He Nr. destruct (history_inv _ _ _ H Nc) as [I [Cf Hl]]. change (2 ^ 28 - 1) with 268435455 in Hl.
  apply (write_total nhash name_ok sz oid_of id_of obj_ok Hslash Hid Hoid Hmono Htree Hzero path_ok Hpath w I Cf Hl); auto; intros e Hin; apply (He e Hin).
Qed.
(** Two indexes with the same files get the same id, however they came about. *)
Theorem C61_same_files_same_tree st1 ops1 w1 id1 w1' st2 ops2 w2 id2 w2' :
  history st1 ops1 w1 -> history st2 ops2 w2 -> write_index false w1 = Ok (0, id1, w1') -> write_index false w2 = Ok (0, id2, w2') -> no_two_same (w_odb w1') -> no_two_same (w_odb w2') ->
  (forall p m o, indexed (w_ix w1) p m o <-> indexed (w_ix w2) p m o) -> id1 = id2.
Proof.
  intros H1 H2 E1 E2 N1 N2 Same. destruct (history_standing _ _ _ _ _ _ H1 N1 E1 eq_refl) as (es1 & D1 & Q1). destruct (history_standing _ _ _ _ _ _ H2 N2 E2 eq_refl) as (es2 & D2 & Q2).
  apply (deep_same sz oid_of _ _ _ D1 _ _ _ D2). intros p m o. rewrite Q1, Q2. apply Same.
Qed.
(** And two with different files do not, if no two objects of both repositories have one id. *)
Lemma same_deep st1 st2 : (forall a b, In a st1 -> In b st2 -> oid_of a = oid_of b -> a = b) -> forall oid es, deep sz oid_of st1 oid es -> forall es', deep sz oid_of st2 oid es' ->
  es = es' /\ forall p m o, holds (open_tree st1) es p m o <-> holds (open_tree st2) es' p m o.
Proof.
  intros Nc oid es D. induction D as [oid b es A B C E F G I] using deep_ind'. intros es' D'. destruct (deep_inv _ _ _ _ _ D') as (b' & A' & B' & C' & E' & F' & G' & I').
  destruct (raw_id _ _ _ _ A) as [Ib Hb]. destruct (raw_id _ _ _ _ A') as [Ib' Hb']. assert (b = b') by (apply Nc; auto; congruence). subst b'. rewrite B in B'. apply Ok_inj in B'. subst es'. split; auto. intros p m o.
  split; intros H; (destruct (holds_inv _ _ _ _ _ H) as [(Hin & Hd)|(m0 & n0 & o0 & sub & q & -> & Hin & Hd & Ho & Hs)]; [now constructor|]);
    destruct (I _ _ _ Hin Hd) as (_ & s1 & D1 & J & _); destruct (I' _ _ _ Hin Hd) as (_ & s2 & D2 & _); destruct (J s2 D2) as [<- Q]; change (n0 ++ 47 :: q) with (n0 ++ bs "/" ++ q); eapply h_below; eauto.
  - apply (deep_open _ _ _ _ _ D2).
  - apply Q. rewrite (deep_open _ _ _ _ _ D1) in Ho. injection Ho as ->. auto.
  - apply (deep_open _ _ _ _ _ D1).
  - apply Q. rewrite (deep_open _ _ _ _ _ D2) in Ho. injection Ho as ->. auto.
Qed.
Theorem C61_same_tree_same_files st1 ops1 w1 oid w1' st2 ops2 w2 w2' :
  history st1 ops1 w1 -> history st2 ops2 w2 -> write_index false w1 = Ok (0, oid, w1') -> write_index false w2 = Ok (0, oid, w2') -> no_two_same (w_odb w1' ++ w_odb w2') ->
  forall p m o, indexed (w_ix w1) p m o <-> indexed (w_ix w2) p m o.
Proof.
  intros H1 H2 E1 E2 N. assert (N1 : no_two_same (w_odb w1')) by (intros a b Ha Hb; apply N; apply in_or_app; auto). assert (N2 : no_two_same (w_odb w2')) by (intros a b Ha Hb; apply N; apply in_or_app; auto).
  destruct (history_standing _ _ _ _ _ _ H1 N1 E1 eq_refl) as (es1 & D1 & Q1). destruct (history_standing _ _ _ _ _ _ H2 N2 E2 eq_refl) as (es2 & D2 & Q2).
  destruct (same_deep (w_odb w1') (w_odb w2') ltac:(intros a b Ha Hb; apply N; apply in_or_app; auto) _ _ D1 _ D2) as [-> S].
  intros p m o. unfold indexed. specialize (Q1 p m o). specialize (Q2 p m o). cbn [pre app] in Q1, Q2. unfold listing in *. rewrite <- Q1, <- Q2. apply S.
Qed.
End P.

(** *** Refutations and an example *)
Definition x_name (n : list Z) : bool := negb (existsb (fun c => c =? 47) n).
Definition x_path (p : list Z) : bool := forallb (fun c => (0 <? c) && (c <? 256)) p && forallb (fun c => negb (leqb c [])) (split 47 p) && (Z.of_nat (length p) <=? 65535).
Definition x_oid (b : list Z) : list Z := let h := fold_left (fun a c => (a * 31 + c) mod 65521) b 7 in [h / 256; h mod 256].
Definition x_id (x : Z) : list Z := [1; x].
Definition x_obj (st : odb) (id : list Z) (ty : Z) : bool := if ty =? 2 then existsb (fun b => leqb (x_oid b) id) st else true.
Notation x_run := (wrun (fun _ => 0%nat) x_name 2 x_oid x_id x_obj x_path).
Notation x_write := (write_index (fun _ => 0%nat) x_name 2 x_oid x_id x_obj).
Definition file (p : String.string) (d : Z) : wop := WIndex (IAdd (mks (bs p) 0 33188 d true)).

(** core.ignorecase: A/b and A/c are written, then a/b takes the place of A/b; the next tree has
    the old directory A with a file A/b that the index has not. *)
Theorem C60_ignore_case_refuted : exists ops w oid w' es,
  Forall wop_ok ops /\ x_run true (mkw inew None []) ops = Ok w /\ x_write true w = Ok (0, oid, w') /\ open_tree 2 x_oid (w_odb w') oid = Some es /\
  holds (open_tree 2 x_oid (w_odb w')) es (bs "A/b") 33188 (x_id 5) /\ ~ indexed x_id (w_ix w) (bs "A/b") 33188 (x_id 5).
Proof.
  exists [file "A/b" 5; file "A/c" 6; WWrite; file "a/b" 7]. do 4 eexists. split; [repeat constructor; cbn; lia|]. split; [vm_compute; reflexivity|]. split; [vm_compute; reflexivity|]. split; [vm_compute; reflexivity|]. split.
  - change (bs "A/b") with (bs "A" ++ bs "/" ++ bs "b"). eapply h_below; [left; reflexivity|reflexivity|vm_compute; reflexivity|]. apply h_file; [left; reflexivity|]. vm_compute. discriminate.
  - intros (e & He & Ep & _). cbn in He. destruct He as [<-|[<-|[]]]; discriminate.
Qed.
(** A file and a directory of the same name in an index that cares about case: the file is lost. *)
Theorem C60_collision_refuted : exists ops w oid w' es,
  Forall wop_ok ops /\ x_run false (mkw inew None []) ops = Ok w /\ x_write false w = Ok (0, oid, w') /\ open_tree 2 x_oid (w_odb w') oid = Some es /\
  indexed x_id (w_ix w) (bs "b") 33188 (x_id 7) /\ forall m o, ~ holds (open_tree 2 x_oid (w_odb w')) es (bs "b") m o.
Proof.
  exists [file "a" 5; file "b/c" 6; file "b" 7]. do 4 eexists. split; [repeat constructor; cbn; lia|]. split; [vm_compute; reflexivity|]. split; [vm_compute; reflexivity|]. split; [vm_compute; reflexivity|]. split.
  - eexists. split; [right; left; reflexivity|]. auto.
  - intros m o H. destruct (holds_inv _ _ _ _ _ H) as [(Hin & Hd)|(m0 & n0 & o0 & sub & q & E & _)].
    + destruct Hin as [E|[E|[]]]; [discriminate|]. injection E as <- <-. apply Hd. reflexivity.
    + assert (Q : In 47 (bs "b")) by (rewrite E; apply in_or_app; right; now left). destruct Q as [Q|[]]. discriminate.
Qed.
(** git_index_write_tree_to another repository after git_index_write_tree: success, but no tree. *)
Theorem C60_other_repository_refuted : exists ops w oid w',
  Forall wop_ok ops /\ x_run false (mkw inew None []) ops = Ok w /\ collision_free (listing (w_ix w)) /\ x_write false (mkw (w_ix w) (w_cache w) []) = Ok (0, oid, w') /\ open_tree 2 x_oid (w_odb w') oid = None.
Proof.
  exists [file "a" 5; WWrite]. do 3 eexists. split; [repeat constructor; cbn; lia|]. split; [vm_compute; reflexivity|]. split; [|split; [vm_compute; reflexivity|vm_compute; reflexivity]].
  intros a b Ha Hb _ (r & E). cbn in Ha, Hb. destruct Ha as [<-|[]], Hb as [<-|[]]. discriminate.
Qed.

(** The hypotheses of the theorems are met. *)
Lemma x_slash n : x_name n = true -> ~ In (ch "/") n.
Proof. unfold x_name. rewrite negb_true_iff. intros H Hin. assert (Q : existsb (fun c => c =? 47) n = true) by (apply existsb_exists; exists 47; auto). congruence. Qed.
Lemma x_plain p : x_path p = true -> plain p.
Proof.
  unfold x_path. rewrite !andb_true_iff. intros [[A B] C]. split; [|split; [|lia]].
  - apply Forall_forall. rewrite forallb_forall in A. intros c Hc. specialize (A c Hc). lia.
  - apply Forall_forall. rewrite forallb_forall in B. intros c Hc. specialize (B c Hc). intros ->. discriminate.
Qed.
Lemma x_oid_len b : length (x_oid b) = 2%nat. Proof. reflexivity. Qed.
Definition free_b (l : list entry) : bool := forallb (fun a => forallb (fun b => negb (prefixb (e_path a ++ [47]) (e_path b))) l) l.
Lemma free_b_ok l : free_b l = true -> collision_free l.
Proof.
  unfold free_b. rewrite forallb_forall. intros H a b Ha Hb _ (r & E). specialize (H a Ha). rewrite forallb_forall in H. specialize (H b Hb). rewrite negb_true_iff in H.
  assert (Q : prefixb (e_path a ++ [47]) (e_path b) = true) by (apply prefixb_spec; exists r; now rewrite E, <- app_assoc). congruence.
Qed.
Definition distinct_b (st : odb) : bool := forallb (fun a => forallb (fun b => negb (leqb (x_oid a) (x_oid b)) || leqb a b) st) st.
Lemma distinct_b_ok st : distinct_b st = true -> no_two_same x_oid st.
Proof.
  unfold distinct_b. rewrite forallb_forall. intros H a b Ha Hb E. specialize (H a Ha). rewrite forallb_forall in H. specialize (H b Hb). rewrite E, leqb_refl in H. cbn in H. now apply leqb_spec in H.
Qed.
Definition x_ops : list wop := [file "lib/x/a" 5; file "lib/b" 6; file "main" 7; WWrite; file "lib/b" 8; WIndex (IRemove (bs "main") 0); WWrite; file "doc/c" 9].
Example C60_history : exists w oid w', history (fun _ => 0%nat) x_name x_path 2 x_oid x_id x_obj [] x_ops w /\ x_write false w = Ok (0, oid, w') /\ no_two_same x_oid (w_odb w') /\
  length (listing (w_ix w)) = 3%nat /\ length (w_odb w') = 7%nat /\ option_map (fun t => map (fun k => (c_name k, c_count k)) (c_kids t)) (w_cache w) = Some [(bs "lib", 2)].
Proof.
  assert (R : exists w, x_run false (mkw inew None []) x_ops = Ok w) by (eexists; vm_compute; reflexivity). destruct R as (w & R). assert (R' := R). vm_compute in R'. apply Ok_inj in R'.
  assert (E : exists oid w', x_write false w = Ok (0, oid, w')) by (subst w; do 2 eexists; vm_compute; reflexivity). destruct E as (oid & w' & E). assert (E' := E). rewrite <- R' in E'. vm_compute in E'. apply Ok_inj in E'. apply (f_equal snd) in E'. cbn [snd] in E'.
  exists w, oid, w'. split; [|split; [exact E|split; [apply distinct_b_ok; rewrite <- E'; vm_compute; reflexivity|split; [rewrite <- R'; reflexivity|split; [rewrite <- E'; reflexivity|rewrite <- R'; reflexivity]]]]].
  split; [repeat constructor; cbn; lia|]. split; [exact R|]. intros k v Hv.
  assert (G : free_b (listing (w_ix v)) = true /\ (length (listing (w_ix v)) <= 5)%nat).
  { do 8 (destruct k as [|k]; [vm_compute in Hv; apply Ok_inj in Hv; rewrite <- Hv; split; [vm_compute; reflexivity|cbn; lia]|]). assert (Q : firstn (S (S (S (S (S (S (S (S k)))))))) x_ops = x_ops) by (cbn; now destruct k). rewrite Q in Hv. vm_compute in Hv. apply Ok_inj in Hv. rewrite <- Hv. split; [vm_compute; reflexivity|cbn; lia]. }
  destruct G as [G1 G2]. split; [now apply free_b_ok|]. lia.
Qed.
Example C60_succeeds_met : (forall st x id ty, x_obj st id ty = true -> x_obj (st ++ x) id ty = true) /\ (forall st b, In b st -> x_obj st (x_oid b) 2 = true).
Proof.
  split.
  - intros st x id ty. unfold x_obj. destruct (ty =? 2); auto. rewrite existsb_app. intros ->. reflexivity.
  - intros st b Hb. unfold x_obj. change (2 =? 2) with true. cbv iota. apply existsb_exists. exists b. split; auto. apply leqb_refl.
Qed.
Print Assumptions C60_write_tree_partial.
Print Assumptions C61_same_tree_same_files.
