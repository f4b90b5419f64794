(** C28 over tree objects: the diff of two trees, from the objects to the deltas. *)
From Verif Require Import Base CStr Str TreeIterModel TreeIterSpec TreeIterProps DiffModel DiffSpec DiffProps.
Local Open Scope Z_scope.

(** tree_iterator_set_current, iterator.c:731-747: the index entry made for a tree entry has stage 0 and no flags. *)
Definition as_item (y : yielded) : item := mkitem (y_path y) (y_mode y) (y_id y) 0 false false.
(** git_diff_tree_to_tree, diff_generate.c:1362-1404, with no pathspec; both iterators expand trees
    and do not yield them (diff_prepare_iterator_opts, 1336-1360, sets no such flags without
    GIT_DIFF_INCLUDE_TYPECHANGE_TREES).  The iterators are run to their end first: the
    difference is in which error is found first. *)
Definition diff_tree_to_tree (fuel : nat) (st : store) (op : dopts) (old new : list tentry) : res (list delta) :=
  do a <- iterate fuel st (mkflags false true) [] old ;;
  do b <- iterate fuel st (mkflags false true) [] new ;;
  diff_lists op false false (map as_item a) (map as_item b).

(** There is a file, symbolic link or submodule at the path [p]. *)
Definition file_at (st : store) (root : list tentry) (p : list Z) (m : Z) (i : list Z) : Prop :=
  exists ns e, contains st root ns e /\ is_tree e = false /\ p = slashed ns /\ m = t_mode e /\ i = t_id e.
Definition ids_nonzero (st : store) (root : list tentry) : Prop := forall p m i, file_at st root p m i -> exists b, In b i /\ b <> 0.
Definition sound_tree (st : store) (root : list tentry) : Prop := complete st root /\ all_canonical st root /\ ids_nonzero st root.

Lemma files_listed st root : sound_tree st root ->
  exists L N, (forall fuel, (N <= fuel)%nat -> iterate fuel st (mkflags false true) [] root = Ok L) /\ tree_items (map as_item L) /\
    forall p m i, In (mkitem p m i 0 false false) (map as_item L) <-> file_at st root p m i.
Proof.
  intros (C & A & Z0). destruct (C44_every_entry_in_order st (mkflags false true) root C A) as (L & N & E & Or & M).
  assert (F : forall p m i, In (mkitem p m i 0 false false) (map as_item L) <-> file_at st root p m i).
  { intros p m i. rewrite in_map_iff. split.
    - intros (y & Ey & Iy). apply M in Iy as (ns & e & Cn & -> & Te & _). exists ns, e. cbn in Te. destruct (is_tree e) eqn:T; [discriminate (Te eq_refl)|].
      unfold as_item, entry_at, full_path in Ey. cbn in Ey. rewrite T, app_nil_r in Ey. injection Ey as <- <- <-. auto.
    - intros (ns & e & Cn & T & -> & -> & ->). exists (entry_at ns e). split; [unfold as_item, entry_at, full_path; cbn; rewrite T, app_nil_r; reflexivity|].
      apply M. exists ns, e. repeat split; auto. intros X. congruence. }
  exists L, N. split; auto. split; auto. split.
  - intros i j a b Lij Ha Hb. left. rewrite nth_error_map in Ha, Hb. destruct (nth_error L i) eqn:Ei; [|discriminate]. destruct (nth_error L j) eqn:Ej; [|discriminate].
    injection Ha as <-. injection Hb as <-. exact (Or i j _ _ Lij Ei Ej).
  - intros e I. pose proof I as I'. apply in_map_iff in I' as (y & Ey & _). unfold as_item in Ey. subst e. cbn. repeat split; auto. apply F in I. eapply Z0; eauto.
Qed.

(** The deltas are exactly the files deleted, added and changed between the two trees, in ascending order of the paths. *)
Theorem C28_diff_of_tree_objects : forall st op old new, sound_tree st old -> sound_tree st new ->
  o_reverse op = false -> o_tctrees op = false -> o_typechange op = true -> o_unmodified op = false -> o_ignore_sub op = false -> (forall p, o_want op p = true) ->
  exists ds N, (forall fuel, (N <= fuel)%nat -> diff_tree_to_tree fuel st op old new = Ok ds) /\ ascending (map d_path ds) /\
    forall d, In d ds <->
      (exists p m i, file_at st old p m i /\ (forall m' i', ~ file_at st new p m' i') /\ d = mkdelta DDeleted p (mkside m i) no_side) \/
      (exists p m i, file_at st new p m i /\ (forall m' i', ~ file_at st old p m' i') /\ d = mkdelta DAdded p no_side (mkside m i)) \/
      (exists p m i m' i', file_at st old p m i /\ file_at st new p m' i' /\ (m, i) <> (m', i') /\
         d = mkdelta (if Z.land m 61440 =? Z.land m' 61440 then DModified else DTypechange) p (mkside m i) (mkside m' i')).
Proof.
  intros st op old new So Sn H1 H2 H3 H4 H5 H6. destruct (files_listed st old So) as (A & Na & Ea & Ta & Fa). destruct (files_listed st new Sn) as (B & Nb & Eb & Tb & Fb).
  destruct (C28_tree_to_tree op _ _ Ta Tb H1 H2 H3 H4 H5 H6) as (ds & Ed & As & Q). exists ds, (Na + Nb)%nat. split.
  { intros fuel L. unfold diff_tree_to_tree. rewrite Ea, Eb by lia. exact Ed. }
  split; auto. intros d. rewrite (Q d). clear Q.
  assert (Sa : forall x, In x (map as_item A) -> x = mkitem (i_path x) (i_mode x) (i_id x) 0 false false) by (intros x I; apply in_map_iff in I as (y & <- & _); reflexivity).
  assert (Sb : forall x, In x (map as_item B) -> x = mkitem (i_path x) (i_mode x) (i_id x) 0 false false) by (intros x I; apply in_map_iff in I as (y & <- & _); reflexivity).
  split; (intros [H|[H|H]]; [left|right; left|right; right]).
  - destruct H as (o & Io & No & ->). exists (i_path o), (i_mode o), (i_id o). split; [apply Fa; now rewrite <- Sa|]. split; [|reflexivity]. intros m' i' X. apply Fb in X. apply (No _ X). reflexivity.
  - destruct H as (o & Io & No & ->). exists (i_path o), (i_mode o), (i_id o). split; [apply Fb; now rewrite <- Sb|]. split; [|reflexivity]. intros m' i' X. apply Fa in X. apply (No _ X). reflexivity.
  - destruct H as (o & n & Io & In' & Ep & Nd & ->). exists (i_path o), (i_mode o), (i_id o), (i_mode n), (i_id n). split; [apply Fa; now rewrite <- Sa|]. split; [rewrite Ep; apply Fb; now rewrite <- Sb|]. split; auto.
  - destruct H as (p & m & i & Fo & No & ->). exists (mkitem p m i 0 false false). split; [now apply Fa|]. split; [|reflexivity]. intros n In' E. rewrite (Sb n In') in In'. apply Fb in In'. cbn in E. rewrite E in In'. eapply No; eauto.
  - destruct H as (p & m & i & Fo & No & ->). exists (mkitem p m i 0 false false). split; [now apply Fb|]. split; [|reflexivity]. intros n In' E. rewrite (Sa n In') in In'. apply Fa in In'. cbn in E. rewrite E in In'. eapply No; eauto.
  - destruct H as (p & m & i & m' & i' & Fo & Fn & Nd & ->). exists (mkitem p m i 0 false false), (mkitem p m' i' 0 false false). split; [now apply Fa|]. split; [now apply Fb|]. auto.
Qed.

(** A case. *)
Example ex_diff : diff_tree_to_tree 10 ex_store (mkopts false false true false false (fun _ => true)) ex_root [TreeIterProps.blob "foo.a" 3; TreeIterProps.blob "new" 2] =
  Ok [mkdelta DModified (bs "foo.a") (mkside 33188 (repeat 1 20)) (mkside 33188 (repeat 3 20));
      mkdelta DDeleted (bs "foo.d") (mkside 33188 (repeat 2 20)) no_side;
      mkdelta DDeleted (bs "foo/x") (mkside 33188 (repeat 4 20)) no_side;
      mkdelta DAdded (bs "new") no_side (mkside 33188 (repeat 2 20))].
Proof. vm_compute. reflexivity. Qed.
Example ex_sound : sound_tree ex_store ex_root.
Proof.
  split; [exact ex_complete|]. split; [exact ex_all|]. intros p m i (ns & e & C & T & _ & _ & ->).
  assert (Q : In e [TreeIterProps.blob "foo.a" 1; TreeIterProps.blob "foo.d" 2; TreeIterProps.blob "x" 4]).
  { inversion C; subst.
    - destruct H as [<-|[<-|[<-|[]]]]; [left; auto|right; left; auto|vm_compute in T; discriminate].
    - apply the_store_some in H1 as (k & [H1|[]]). injection H1 as _ <-. inversion H2; subst; [destruct H1 as [<-|[]]; right; right; left; auto|]. destruct H1 as [<-|[]]. vm_compute in H3. discriminate. }
  destruct Q as [<-|[<-|[<-|[]]]]; eexists; (split; [left; reflexivity|discriminate]).
Qed.
