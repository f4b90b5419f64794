(** The walk of the working directory beside the differences finds, for every difference, exactly
    what the working directory has at its path. *)
From Coq Require Import ZArith List Bool Lia Sorted.
From Verif Require Import Base CStr Str CheckoutModel CheckoutSpec.
Import ListNotations.
Local Open Scope Z_scope.

(** * Order and prefixes *)
Lemma sw_app (a b : list Z) : starts_with a (a ++ b).
Proof. exists b. reflexivity. Qed.
Lemma sw_trans a b c : starts_with a b -> starts_with b c -> starts_with a c.
Proof. intros [x ->] [y ->]. exists (x ++ y). rewrite app_assoc. reflexivity. Qed.

Lemma lex_ext a b : b <> [] -> lex a (a ++ b) = Lt.
Proof.
  intros H. rewrite <- (app_nil_r a) at 1. rewrite lex_app_common. destruct b; [congruence|reflexivity].
Qed.
Lemma lex_le_ext a b c : lex (a ++ b) c = Lt -> lex a c = Lt.
Proof.
  intros H. destruct b as [|x b]; [rewrite app_nil_r in H; exact H|].
  apply lex_lt_trans with (a ++ x :: b); [apply lex_ext; congruence|exact H].
Qed.
(** Extending the smaller side keeps the order unless it is a prefix of the greater one. *)
Lemma ext_lt a : forall b s, lex a b = Lt -> ~ starts_with a b -> lex (a ++ s) b = Lt.
Proof.
  induction a as [|x a IH]; intros b s H N; [exfalso; apply N; exists b; reflexivity|].
  destruct b as [|y b]; cbn in H |- *; [congruence|].
  destruct (x ?= y) eqn:E; try congruence.
  apply IH; [exact H|]. intros [v ->]. apply N. exists v. apply Z.compare_eq in E. subst y. reflexivity.
Qed.
(** Extending the greater side keeps the order. *)
Lemma lt_ext a b s : lex a b = Lt -> lex a (b ++ s) = Lt.
Proof.
  intros H. destruct s as [|x s]; [rewrite app_nil_r; exact H|].
  apply lex_lt_trans with b; [exact H|apply lex_ext; congruence].
Qed.
Lemma lex_irrefl a : lex a a <> Lt.
Proof. rewrite lex_refl. congruence. Qed.
Lemma lex_gt_lt a b : lex a b = Gt -> lex b a = Lt.
Proof. intros H. rewrite lex_antisym, H. reflexivity. Qed.
Lemma lex_asym a b : lex a b = Lt -> lex b a = Lt -> False.
Proof. intros H H'. apply (lex_irrefl a). apply lex_lt_trans with b; assumption. Qed.

(** * All the nodes of a working directory, with the paths the iterator gives them *)
Definition sfx (n : node) : list Z := if is_dir n then [slash] else [].
Fixpoint items_at (path : list Z) (n : node) : list item :=
  (path, n) ::
  match n with
  | NFile _ => []
  | NDir _ _ kids =>
    (fix go (l : list (list Z * node)) :=
       match l with
       | [] => []
       | k :: r => items_at (path ++ fst k ++ sfx (snd k)) (snd k) ++ go r
       end) kids
  end.
Definition items (it : list item) : list item := flat_map (fun w => items_at (fst w) (snd w)) it.

Lemma items_at_dir path i g kids :
  items_at path (NDir i g kids) = (path, NDir i g kids) :: items (map (child path) kids).
Proof.
  cbn [items_at]. f_equal. unfold items. induction kids as [|k r IH]; [reflexivity|].
  cbn [map flat_map]. rewrite <- IH. reflexivity.
Qed.
Lemma files_at_dir path i g kids : files_at path (NDir i g kids) = files (map (child path) kids).
Proof.
  cbn [files_at]. unfold files. induction kids as [|k r IH]; [reflexivity|].
  cbn [map flat_map]. rewrite <- IH. reflexivity.
Qed.
Lemma nsize_dir i g kids p : nsize (NDir i g kids) = S (isize (map (child p) kids)).
Proof.
  cbn [nsize]. f_equal. induction kids as [|k r IH]; [reflexivity|]. cbn [map isize child snd]. rewrite <- IH. reflexivity.
Qed.
Lemma isize_app a b : isize (a ++ b) = (isize a + isize b)%nat.
Proof. induction a as [|x a IH]; cbn [app isize]; [reflexivity|]. rewrite IH. lia. Qed.
Lemma advance_size w : (isize (advance_into w) < nsize (snd w))%nat.
Proof.
  destruct w as [p [f|i g kids]]; cbn [snd advance_into]; [cbn; lia|]. rewrite (nsize_dir i g kids p). lia.
Qed.
Lemma nsize_pos n : (0 < nsize n)%nat.
Proof. destruct n; cbn; lia. Qed.
Lemma items_app a b : items (a ++ b) = items a ++ items b.
Proof. unfold items. apply flat_map_app. Qed.
Lemma in_items z it : In z (items it) <-> exists w, In w it /\ In z (items_at (fst w) (snd w)).
Proof. unfold items. rewrite in_flat_map. reflexivity. Qed.

(** Induction on nodes, through their lists of entries. *)
Fixpoint node_ind' (P : node -> Prop) (Hf : forall f, P (NFile f))
  (Hd : forall i g kids, Forall (fun k => P (snd k)) kids -> P (NDir i g kids)) (n : node) : P n :=
  match n with
  | NFile f => Hf f
  | NDir i g kids => Hd i g kids ((fix go l : Forall (fun k => P (snd k)) l :=
      match l with [] => Forall_nil _ | k :: r => Forall_cons k (node_ind' P Hf Hd (snd k)) (go r) end) kids)
  end.

Lemma sw_refl a : starts_with a a.
Proof. exists []. rewrite app_nil_r. reflexivity. Qed.
Lemma items_sw n : forall p z, In z (items_at p n) -> starts_with p (fst z).
Proof.
  induction n as [f|i g kids IH] using node_ind'; intros p z H.
  - cbn in H. destruct H as [<-|[]]. apply sw_refl.
  - rewrite items_at_dir in H. destruct H as [<-|H]; [apply sw_refl|].
    apply in_items in H. destruct H as (w & Hw & Hz). apply in_map_iff in Hw. destruct Hw as (k & <- & Hk).
    rewrite Forall_forall in IH. specialize (IH k Hk (fst (child p k)) z Hz).
    unfold child in IH. cbn [fst] in IH. apply sw_trans with (2 := IH). eexists. reflexivity.
Qed.
Lemma items_self p n : In (p, n) (items_at p n).
Proof. destruct n; left; reflexivity. Qed.

(** Files are the items that are files. *)
Lemma files_items_at n : forall p q f, In (q, f) (files_at p n) <-> In (q, NFile f) (items_at p n).
Proof.
  induction n as [f0|i g kids IH] using node_ind'; intros p q f.
  - cbn. split; intros [E|[]]; left; congruence.
  - rewrite files_at_dir, items_at_dir. unfold files. rewrite in_flat_map.
    cbn [In]. rewrite in_items. rewrite Forall_forall in IH. split.
    + intros (w & Hw & H). right. exists w. split; [exact Hw|]. apply in_map_iff in Hw. destruct Hw as (k & <- & Hk).
      apply (IH k Hk). exact H.
    + intros [E|(w & Hw & H)]; [congruence|]. exists w. split; [exact Hw|]. apply in_map_iff in Hw. destruct Hw as (k & <- & Hk).
      apply (IH k Hk). exact H.
Qed.
Lemma files_items it q f : In (q, f) (files it) <-> In (q, NFile f) (items it).
Proof.
  unfold files. rewrite in_flat_map, in_items.
  split; intros (w & Hw & H); exists w; (split; [exact Hw|]); apply files_items_at; exact H.
Qed.

(** Items of a directory are what lives in it. *)
Lemma items_lives n : forall i g kids, n = NDir i g kids -> forall dir y x,
  In (y, x) (items (map (child dir) kids)) <-> exists q, lives kids q x /\ y = dir ++ q ++ sfx x.
Proof.
  induction n as [f|i0 g0 kids0 IH] using node_ind'; intros i g kids E dir y x; [congruence|].
  injection E as -> -> ->. rewrite Forall_forall in IH. rewrite in_items. split.
  - intros (w & Hw & Hz). apply in_map_iff in Hw. destruct Hw as ([name m] & <- & Hk).
    unfold child in Hz. cbn [fst snd] in Hz. destruct m as [f|i' g' sub].
    + cbn in Hz. destruct Hz as [E|[]]. injection E as <- <-. exists name. split; [constructor; exact Hk|reflexivity].
    + rewrite items_at_dir in Hz. destruct Hz as [E|Hz].
      * injection E as <- <-. exists name. split; [constructor; exact Hk|reflexivity].
      * apply (IH _ Hk i' g' sub eq_refl) in Hz. destruct Hz as (q & L & ->).
        exists (name ++ slash :: q). split; [eapply lives_below; eassumption|].
        cbn [is_dir]. rewrite <- !app_assoc. cbn [app]. reflexivity.
  - intros (q & L & ->). inversion L as [? name n0 Hk|? name i' g' sub q' n0 Hk L']; subst.
    + exists (child dir (q, x)). split; [apply in_map; exact Hk|]. unfold child, sfx. cbn [fst snd]. apply items_self.
    + exists (child dir (name, NDir i' g' sub)). split; [apply in_map; exact Hk|].
      unfold child. cbn [fst snd is_dir]. rewrite items_at_dir. right.
      apply (IH _ Hk i' g' sub eq_refl). exists q'. split; [exact L'|]. rewrite <- !app_assoc. reflexivity.
Qed.
Lemma workdir_lives kids y x : In (y, x) (items (workdir kids)) <-> exists q, lives kids q x /\ y = q ++ sfx x.
Proof. apply (items_lives (NDir false false kids) false false kids eq_refl [] y x). Qed.

(** * The iterator's positions *)
Definition rel (x y : item) : Prop := lex (fst x) (fst y) = Lt /\ (is_dir (snd x) = true -> ~ starts_with (fst x) (fst y)).
Definition item_ok (w : item) : Prop :=
  match snd w with
  | NFile f => f_mode f <> MODE_TREE /\ fst w <> [] /\ last (fst w) 0 <> slash
  | NDir _ _ kids => (exists p, fst w = p ++ [slash] /\ p <> [] /\ last p 0 <> slash) /\ wf kids
  end.

Lemma last_noslash name : name <> [] -> ~ In slash name -> last name 0 <> slash.
Proof.
  intros H N E. apply N. rewrite (app_removelast_last 0 H). apply in_or_app. right. left. exact E.
Qed.
Lemma last_app_ne (a b : list Z) : b <> [] -> last (a ++ b) 0 = last b 0.
Proof.
  intros H. destruct (exists_last H) as (b' & x & ->). rewrite app_assoc, !last_last. reflexivity.
Qed.
Lemma child_ok dir k kids : wf kids -> In k kids -> item_ok (child dir k).
Proof.
  intros W Hk. destruct k as [name n]. inversion W as [? A B C D F]; subst. specialize (A _ _ Hk). destruct A as [A A'].
  unfold item_ok, child. cbn [fst snd]. destruct n as [f|i g sub]; cbn [is_dir].
  - rewrite app_nil_r. split; [eapply B; exact Hk|]. split; [destruct dir; [exact A|discriminate]|].
    rewrite last_app_ne by exact A. apply last_noslash; assumption.
  - split; [|eapply C; exact Hk]. exists (dir ++ name). rewrite app_assoc. split; [reflexivity|].
    split; [destruct dir; [exact A|discriminate]|]. rewrite last_app_ne by exact A. apply last_noslash; assumption.
Qed.
Lemma kids_rel dir kids : wf kids -> StronglySorted rel (map (child dir) kids).
Proof.
  intros W. inversion W as [? A B C D F]; subst. clear B C.
  assert (G : forall a b, In a kids -> In b kids -> fst a <> fst b -> lex (key a) (key b) = Lt -> rel (child dir a) (child dir b)).
  { intros [a n] [b m] Ha Hb Nab L. unfold rel, child, key in *. cbn [fst snd] in *. rewrite lex_app_common. split; [exact L|].
    intros Di [v E]. rewrite Di in *. rewrite <- app_assoc in E. apply app_inv_head in E. rewrite <- app_assoc in E. cbn [app] in E.
    apply A in Ha, Hb. destruct Ha as [Ha Ha'], Hb as [Hb Hb'].
    assert (E' : b ++ sfx m = a ++ slash :: v) by exact E. unfold sfx in E'.
    destruct (is_dir m) eqn:Dm.
    - destruct v as [|c v].
      + apply app_inj_tail in E'. destruct E' as [E' _]. congruence.
      + apply Hb'. assert (X : In slash (removelast (b ++ [slash]))).
        { rewrite E'. replace (a ++ slash :: c :: v) with ((a ++ [slash]) ++ c :: v) by (rewrite <- app_assoc; reflexivity).
          rewrite removelast_app by congruence. apply in_or_app. left. apply in_or_app. right. left. reflexivity. }
        rewrite removelast_last in X. exact X.
    - rewrite app_nil_r in E'. apply Hb'. rewrite E'. apply in_or_app. right. left. reflexivity. }
  clear A W. induction kids as [|k r IH]; [constructor|]. cbn [map]. inversion D as [|? ? D1 D2]; subst.
  inversion F as [|? ? F1 F2]; subst. constructor.
  - apply IH; try assumption. intros a b Ha Hb. apply G; right; assumption.
  - apply Forall_map. rewrite Forall_forall in F2 |- *. intros b Hb. apply G; [left; reflexivity|right; exact Hb| |apply F2; exact Hb].
    intros E. apply D1. rewrite E. apply in_map. exact Hb.
Qed.
Lemma rel_child x k kids i g y : snd x = NDir i g kids -> In k kids -> rel x y -> rel (child (fst x) k) y.
Proof.
  intros Ex Hk [L N]. rewrite Ex in N. specialize (N eq_refl). unfold rel, child. cbn [fst snd]. split.
  - apply ext_lt; assumption.
  - intros _ [v E]. apply N. rewrite E. exists ((fst k ++ (if is_dir (snd k) then [slash] else [])) ++ v). rewrite <- !app_assoc. reflexivity.
Qed.
Lemma ssorted_app (a b : list item) : StronglySorted rel a -> StronglySorted rel b ->
  (forall x y, In x a -> In y b -> rel x y) -> StronglySorted rel (a ++ b).
Proof.
  induction a as [|x a IH]; intros A B G; [exact B|]. cbn [app]. inversion A as [|? ? A1 A2]; subst. constructor.
  - apply IH; try assumption. intros; apply G; [right|]; assumption.
  - rewrite Forall_forall in A2 |- *. intros y Hy. apply in_app_or in Hy. destruct Hy as [Hy|Hy]; [apply A2; exact Hy|apply G; [left; reflexivity|exact Hy]].
Qed.
Lemma advance_sorted x rest : item_ok x -> StronglySorted rel (x :: rest) -> StronglySorted rel (advance_into x ++ rest).
Proof.
  intros K H. inversion H as [|? ? A B]; subst. destruct x as [p [f|i g kids]]; cbn [advance_into]; [exact A|].
  unfold item_ok in K. cbn [snd fst] in K. destruct K as [_ W]. apply ssorted_app; [apply kids_rel; exact W|exact A|].
  intros z y Hz Hy. apply in_map_iff in Hz. destruct Hz as (k & <- & Hk).
  apply (rel_child (p, NDir i g kids) k kids i g y eq_refl Hk). rewrite Forall_forall in B. apply B. exact Hy.
Qed.
Lemma advance_ok x : item_ok x -> Forall item_ok (advance_into x).
Proof.
  intros K. destruct x as [p [f|i g kids]]; cbn [advance_into]; [constructor|].
  unfold item_ok in K. cbn [snd fst] in K. destruct K as [_ W]. apply Forall_map, Forall_forall. intros k Hk. apply child_ok with kids; assumption.
Qed.
Lemma items_split x z : In z (items_at (fst x) (snd x)) <-> z = x \/ In z (items (advance_into x)).
Proof.
  destruct x as [p [f|i g kids]]; cbn [fst snd advance_into].
  - cbn. split; intros [H|H]; auto.
  - rewrite items_at_dir. cbn [In]. split; intros [H|H]; auto.
Qed.

(** Everything below the items after [x] sorts after [x]. *)
Lemma items_ge x rest z : StronglySorted rel (x :: rest) -> In z (items (x :: rest)) -> fst z = fst x \/ lex (fst x) (fst z) = Lt.
Proof.
  intros H Hz. apply in_items in Hz. destruct Hz as (w & Hw & Hz). apply items_sw in Hz. destruct Hz as [v E].
  inversion H as [|? ? A B]; subst. destruct Hw as [<-|Hw].
  - destruct v as [|c v]; [left; rewrite app_nil_r in E; exact E|right]. rewrite E. apply lex_ext. discriminate.
  - right. rewrite E. apply lt_ext. rewrite Forall_forall in B. apply (B w Hw).
Qed.

(** * The walk *)
Definition bare (z : item) : list Z := strip (fst z).
Definition ge (p b : list Z) : Prop := b = p \/ lex p b = Lt.

Lemma strip_slash p : strip (p ++ [slash]) = p.
Proof. unfold strip. rewrite last_last, removelast_last. reflexivity. Qed.
Lemma strip_id p : last p 0 <> slash -> strip p = p.
Proof. unfold strip. intros H. destruct (Z.eqb_spec (last p 0) slash); [contradiction|reflexivity]. Qed.
Lemma strip_lt z p : lex z p = Lt -> lex (strip z) p = Lt.
Proof.
  unfold strip. intros H. destruct (Z.eqb_spec (last z 0) slash) as [E|E]; [|exact H].
  destruct z as [|c z]; [exact H|]. apply lex_le_ext with (b := [last (c :: z) 0]).
  rewrite <- app_removelast_last by discriminate. exact H.
Qed.
Lemma ge_lt p b : ge p b -> lex b p = Lt -> False.
Proof. intros [->|H] H'; [apply (lex_irrefl p H')|apply (lex_asym p b H H')]. Qed.

Record Inv (all : list item) (p : list Z) (R : list item) : Prop := mkInv {
  inv_sorted : StronglySorted rel R;
  inv_ok : Forall item_ok R;
  inv_incl : incl (items R) (items all);
  inv_cov : forall z, In z (items all) -> ge p (bare z) -> In z (items R);
  inv_anc : forall x y, In x R -> starts_with (y ++ [slash]) (fst x) -> fst x <> y ++ [slash] -> lex y p = Lt }.

Lemma inv_mono all p p' R : lex p p' = Lt -> Inv all p R -> Inv all p' R.
Proof.
  intros L [A B C D E]. constructor; try assumption.
  - intros z Hz [G|G]; apply D; try exact Hz; right; [rewrite G; exact L|apply lex_lt_trans with p'; assumption].
  - intros x y Hx S1 N. apply lex_lt_trans with p; [|exact L]. apply (E x); assumption.
Qed.
Lemma inv_drop all p x R : Inv all p (x :: R) -> (forall z, In z (items_at (fst x) (snd x)) -> lex (bare z) p = Lt) -> Inv all p R.
Proof.
  intros [A B C D E] H. inversion A; inversion B; subst. constructor; try assumption.
  - intros z Hz. apply C. unfold items. cbn [flat_map]. apply in_or_app. right. exact Hz.
  - intros z Hz G. specialize (D z Hz G). unfold items in D. cbn [flat_map] in D. apply in_app_or in D. destruct D as [D|D]; [|exact D].
    exfalso. apply (ge_lt p (bare z) G). apply H. exact D.
  - intros z y Hz. apply E. right. exact Hz.
Qed.
Lemma inv_expand all p x R : Inv all p (x :: R) -> is_dir (snd x) = true -> lex (bare x) p = Lt -> Inv all p (advance_into x ++ R).
Proof.
  intros [A B C D E] Di L. inversion B as [|? ? B1 B2]; subst. constructor.
  - apply advance_sorted; assumption.
  - apply Forall_app. split; [apply advance_ok; exact B1|exact B2].
  - intros z Hz. apply C. rewrite items_app in Hz. unfold items at 1. cbn [flat_map]. apply in_or_app.
    apply in_app_or in Hz. destruct Hz as [Hz|Hz]; [left|right; exact Hz]. apply items_split. right. exact Hz.
  - intros z Hz G. specialize (D z Hz G). unfold items in D. cbn [flat_map] in D. rewrite items_app. apply in_or_app. apply in_app_or in D.
    destruct D as [D|D]; [left|right; exact D]. apply items_split in D. destruct D as [->|D]; [|exact D].
    exfalso. apply (ge_lt p (bare x) G L).
  - intros z y Hz S1 N. apply in_app_or in Hz. destruct Hz as [Hz|Hz]; [|apply (E z); try assumption; right; exact Hz].
    destruct x as [px [f|i g kids]]; [destruct Hz|]. cbn [advance_into] in Hz. apply in_map_iff in Hz. destruct Hz as ([name m] & <- & Hk).
    unfold item_ok in B1. cbn [fst snd] in B1. destruct B1 as [(b & Eb & Nb & Lb) W]. subst px.
    unfold bare in L. cbn [fst] in L. rewrite strip_slash in L.
    unfold child in S1, N. cbn [fst snd] in S1, N.
    (* compare the lengths of y/ and b/ *)
    destruct S1 as [v Ev].
    assert (Cases : (exists v', b ++ [slash] = (y ++ [slash]) ++ v') \/ (exists v', v' <> [] /\ y ++ [slash] = (b ++ [slash]) ++ v' /\ name ++ (if is_dir m then [slash] else []) = v' ++ v)).
    { set (u := y ++ [slash]) in *. set (w := b ++ [slash]) in *. set (t := name ++ (if is_dir m then [slash] else [])) in *. clearbody u w t. clear -Ev.
      revert u Ev. induction w as [|c w IH]; intros u Ev.
      - cbn [app] in Ev. destruct u as [|e u]; [left; exists []; reflexivity|right; exists (e :: u); split; [discriminate|split; [reflexivity|exact Ev]]].
      - destruct u as [|e u]; [left; exists (c :: w); reflexivity|]. cbn [app] in Ev. injection Ev as <- Ev. destruct (IH u Ev) as [(v' & G)|(v' & N' & G & G')].
        + left. exists v'. rewrite G. reflexivity.
        + right. exists v'. split; [exact N'|]. rewrite G. split; [reflexivity|exact G']. }
    destruct Cases as [(v' & G)|(v' & N' & G & G')].
    + destruct (list_eq_dec Z.eq_dec (b ++ [slash]) (y ++ [slash])) as [Q|Q].
      * apply app_inj_tail in Q. destruct Q as [<- _]. exact L.
      * apply (E (b ++ [slash], NDir i g kids)); [left; reflexivity|exists v'; exact G|exact Q].
    + exfalso. inversion W as [? W1 ? ? ? ?]; subst. destruct (W1 _ _ Hk) as [W2 W3].
      assert (Lv : last v' 0 = slash). { assert (X : last (y ++ [slash]) 0 = last ((b ++ [slash]) ++ v') 0) by (rewrite G; reflexivity). rewrite last_last, last_app_ne in X by exact N'. symmetry. exact X. }
      destruct (exists_last N') as (v0 & c & ->). rewrite last_last in Lv. subst c.
      destruct (is_dir m).
      * destruct v as [|c v].
        -- apply N. rewrite G, G', app_nil_r. reflexivity.
        -- apply W3. assert (X : In slash (removelast (name ++ [slash]))).
           { rewrite G'. rewrite removelast_app by discriminate. apply in_or_app. left. apply in_or_app. right. left. reflexivity. }
           rewrite removelast_last in X. exact X.
      * rewrite app_nil_r in G'. apply W3. rewrite G'. apply in_or_app. left. apply in_or_app. right. left. reflexivity.
Qed.

(** What is done when the working directory has a directory at the path of the difference. *)
Definition dir_action (st : strategy) (ix : index) (sm cf : bool) (d : delta) (w : item) : action :=
  let other := if empty_dir (snd w) then action_dir_empty st d else action_wd_dir st d w in
  match d_status d with
  | Typechange =>
    if (d_omode d =? MODE_TREE) || ((d_nmode d =? MODE_TREE) || (d_nmode d =? MODE_COMMIT) || (d_omode d =? MODE_COMMIT))
    then action_with_wd st ix sm cf d w else other
  | _ => other
  end.

Section Walk.
Variables (all : list item) (st : strategy) (ix : index) (sm cf : bool) (spec : list Z -> bool) (d : delta) (done : list Z -> Prop).
Notation p := (d_path d).
Hypothesis Hp : p <> [] /\ last p 0 <> slash.
Hypothesis Hblock : forall q f, In (q, NFile f) (items all) -> starts_with (q ++ [slash]) p -> done q.
Hypothesis Hshadow : forall n, In (p ++ [slash], n) (items all) -> forall z c, In z (items all) -> c < slash -> ~ starts_with (p ++ [c]) (fst z).
Hypothesis Huniq : forall f n, In (p, NFile f) (items all) -> In (p ++ [slash], n) (items all) -> False.

Definition file_here := exists f, In (p, NFile f) (items all).
Definition dir_here := exists n, In (p ++ [slash], n) (items all).
Definition found (a : action) : Prop :=
  (exists f, In (p, NFile f) (items all) /\ a = action_with_wd st ix sm cf d (p, NFile f)) \/
  (exists n, In (p ++ [slash], n) (items all) /\ is_dir n = true /\ a = dir_action st ix sm cf d (p ++ [slash], n)) \/
  (~ file_here /\ ~ dir_here /\ a = action_no_wd st d).

Lemma ge_self n : ge p (bare (p, n)).
Proof. left. unfold bare. cbn [fst]. apply strip_id. apply Hp. Qed.
Lemma ge_dir n : ge p (bare (p ++ [slash], n)).
Proof. left. unfold bare. cbn [fst]. apply strip_slash. Qed.

Lemma walk fuel : forall R a R' rm, Inv all p R -> (forall z, In z (items R) -> ~ done (fst z)) ->
  checkout_action fuel st ix sm cf spec d R = Some (a, R', rm) ->
  found a /\ (safe st -> rm = []) /\ (forall z, In z (items R') -> In z (items R) /\ lex p (fst z) = Lt) /\
  ((dir_here -> d_status d = Typechange -> d_omode d = MODE_TREE) -> forall p', lex p p' = Lt -> Inv all p' R').
Proof.
  induction fuel as [|fuel IH]; intros R a R' rm V Dn0 H; [discriminate|].
  cbn [checkout_action] in H. destruct R as [|x R].
  { injection H as <- <- <-. split; [|split].
    - right. right. split; [|split; [|reflexivity]].
      + intros [f Hf]. apply (inv_cov _ _ _ V) in Hf; [destruct Hf|apply ge_self].
      + intros [n Hn]. apply (inv_cov _ _ _ V) in Hn; [destruct Hn|apply ge_dir].
    - reflexivity.
    - split; [intros z []|]. intros _ p' L. apply inv_mono with p; assumption. }
  pose proof (inv_ok _ _ _ V) as K. inversion K as [|? ? K1 K2]; subst.
  assert (Xall : In x (items all)).
  { apply (inv_incl _ _ _ V). unfold items. cbn [flat_map]. apply in_or_app. left. destruct x. apply items_self. }
  (* the file and directory positions are in the iterator, hence not before its head *)
  assert (Hge : forall z, In z (items all) -> ge p (bare z) -> fst z = fst x \/ lex (fst x) (fst z) = Lt).
  { intros z Hz G. apply items_ge with R; [apply (inv_sorted _ _ _ V)|apply (inv_cov _ _ _ V); assumption]. }
  (* the case of an item before the delta that is not one of its parents *)
  assert (Only : lex (fst x) p = Lt -> (is_dir (snd x) = true -> ~ starts_with (fst x) p) ->
    forall a R' rm,
    (let '(front, rm) := wd_only st ix spec x in
     match checkout_action fuel st ix sm cf spec d (front ++ R) with
     | Some (a, it', rm') => Some (a, it', rm ++ rm')
     | None => None
     end) = Some (a, R', rm) ->
    found a /\ (safe st -> rm = []) /\ (forall z, In z (items R') -> In z (items (x :: R)) /\ lex p (fst z) = Lt) /\
    ((dir_here -> d_status d = Typechange -> d_omode d = MODE_TREE) -> forall p', lex p p' = Lt -> Inv all p' R')).
  { clear H a R' rm. intros L N a R' rm H.
    assert (V0 : Inv all p R).
    { apply inv_drop with x; [exact V|]. intros z Hz. unfold bare. apply strip_lt. destruct (is_dir (snd x)) eqn:Di.
      - apply items_sw in Hz. destruct Hz as [v ->]. apply ext_lt; [exact L|apply N; reflexivity].
      - destruct x as [px [f|i g k]]; [|discriminate]. cbn in Hz. destruct Hz as [<-|[]]. exact L. }
    assert (V1 : Inv all p (advance_into x ++ R)).
    { destruct (is_dir (snd x)) eqn:Di.
      - apply inv_expand; [exact V|exact Di|]. unfold bare. apply strip_lt. exact L.
      - destruct x as [px [f|i g k]]; [exact V0|discriminate]. }
    assert (Front : exists front rm1, wd_only st ix spec x = (front, rm1) /\ Inv all p (front ++ R) /\ (safe st -> rm1 = []) /\ (front = [] \/ front = advance_into x)).
    { unfold wd_only. destruct x as [px n]. cbn [fst snd] in *. destruct (negb (spec px)); [exists (advance_into (px, n)), []; split; [reflexivity|split; [exact V1|split; [reflexivity|right; reflexivity]]]|].
      assert (U : forall r, safe st -> (if (if n_ignored n then s_rm_ignored st else s_rm_untracked st) && r then [px] else []) = []).
      { intros r (_ & S2 & S3). rewrite S2, S3. destruct (n_ignored n); reflexivity. }
      destruct n as [f|i g k].
      - destruct (existsb (leqb px) (ix_paths ix)).
        + eexists _, _. split; [reflexivity|]. split; [exact V0|]. split; [|left; reflexivity]. intros (S1 & _ & _). rewrite S1. reflexivity.
        + eexists _, _. split; [reflexivity|]. split; [exact V0|]. split; [|left; reflexivity]. intros S1. apply (U _ S1).
      - destruct (existsb (prefixb px) (ix_paths ix)).
        + eexists _, _. split; [reflexivity|]. split; [exact V1|]. split; [reflexivity|right; reflexivity].
        + eexists _, _. split; [reflexivity|]. split; [exact V0|]. split; [|left; reflexivity]. intros S1. apply (U _ S1). }
    destruct Front as (front & rm1 & Ef & Vf & Rf & Ff). rewrite Ef in H.
    assert (Sub : forall z, In z (items (front ++ R)) -> In z (items (x :: R))).
    { intros z Hz. rewrite items_app in Hz. change (items (x :: R)) with (items_at (fst x) (snd x) ++ items R). apply in_or_app. apply in_app_or in Hz.
      destruct Hz as [Hz|Hz]; [left|right; exact Hz]. destruct Ff as [->| ->]; [destruct Hz|]. apply items_split. right. exact Hz. }
    destruct (checkout_action fuel st ix sm cf spec d (front ++ R)) as [[[a0 R0] rm0]|] eqn:Er; [|discriminate].
    injection H as <- <- <-. specialize (IH _ _ _ _ Vf ltac:(intros z Hz; apply Dn0, Sub, Hz) Er). destruct IH as (I1 & I2 & I3 & I4). split; [exact I1|]. split; [|split; [|exact I4]].
    - intros S1. rewrite (Rf S1), (I2 S1). reflexivity.
    - intros z Hz. destruct (I3 z Hz) as [Q1 Q2]. split; [apply Sub; exact Q1|exact Q2]. }
  assert (Gtp : forall z w W, In z (items W) -> StronglySorted rel (w :: W) -> fst w = p -> lex p (fst z) = Lt).
  { intros z w W Hz So Ew. inversion So as [|? ? _ B]; subst. apply in_items in Hz. destruct Hz as (u & Hu & Hz). apply items_sw in Hz. destruct Hz as [v ->].
    rewrite <- Ew. apply lt_ext. rewrite Forall_forall in B. apply (B u Hu). }
  assert (Gtx : lex p (fst x) = Lt -> forall z, In z (items (x :: R)) -> lex p (fst z) = Lt).
  { intros Lx z Hz. apply items_ge in Hz; [|apply (inv_sorted _ _ _ V)]. destruct Hz as [->|Hz]; [exact Lx|apply lex_lt_trans with (fst x); assumption]. }
  destruct (lex (fst x) p) eqn:L.
  - (* case 4 *)
    apply lex_eq in L. injection H as <- <- <-.
    destruct x as [px [f|i g k]]; cbn [fst] in L; subst px.
    + split; [|split].
      * left. exists f. split; [exact Xall|reflexivity].
      * reflexivity.
      * split.
        { intros z Hz. split; [unfold items; cbn [flat_map]; apply in_or_app; right; exact Hz|].
          apply (Gtp z (p, NFile f) R Hz (inv_sorted _ _ _ V) eq_refl). }
        intros _ p' L'. apply inv_drop with (p, NFile f); [apply inv_mono with p; assumption|].
        intros z Hz. cbn in Hz. destruct Hz as [<-|[]]. unfold bare. apply strip_lt. exact L'.
    + exfalso. unfold item_ok in K1. cbn [fst snd] in K1. destruct K1 as [(b & Eb & _) _].
      apply (proj2 Hp). rewrite Eb. apply last_last.
  - (* before the delta *)
    destruct (prefixb (fst x) p) eqn:Pf.
    + apply prefixb_spec in Pf. destruct (is_dir (snd x)) eqn:Di.
      * assert (Sub : forall z, In z (items (advance_into x ++ R)) -> In z (items (x :: R))).
        { intros z Hz. rewrite items_app in Hz. change (items (x :: R)) with (items_at (fst x) (snd x) ++ items R). apply in_or_app. apply in_app_or in Hz.
          destruct Hz as [Hz|Hz]; [left|right; exact Hz]. apply items_split. right. exact Hz. }
        destruct (IH (advance_into x ++ R) a R' rm) as (I1 & I2 & I3 & I4).
        -- apply inv_expand; [exact V|exact Di|]. unfold bare. apply strip_lt. exact L.
        -- intros z Hz. apply Dn0, Sub, Hz.
        -- exact H.
        -- split; [exact I1|]. split; [exact I2|]. split; [|exact I4]. intros z Hz. destruct (I3 z Hz) as [Q1 Q2]. split; [apply Sub; exact Q1|exact Q2].
      * destruct (Z.eqb_spec (nth (length (fst x)) p 0) slash) as [Q|Q].
        -- exfalso. destruct x as [px [f|i g k]]; [|discriminate]. cbn [fst] in *. apply (Dn0 (px, NFile f)); [left; reflexivity|]. cbn [fst]. apply (Hblock px f Xall).
           destruct Pf as [v Ev]. rewrite Ev in Q. rewrite app_nth2, Nat.sub_diag in Q by lia.
           destruct v as [|c v]; [discriminate|]. cbn in Q. subst c. exists v. rewrite Ev, <- app_assoc. reflexivity.
        -- apply (Only eq_refl); [congruence|exact H].
    + apply (Only eq_refl); [|exact H]. intros _ G. apply prefixb_spec in G. congruence.
  - (* after the delta *)
    apply lex_gt_lt in L.
    assert (NF : ~ file_here).
    { intros [f Hf]. specialize (Hge _ Hf (ge_self _)). cbn [fst] in Hge. destruct Hge as [G|G]; [rewrite G in L; apply (lex_irrefl _ L)|apply (lex_asym _ _ L G)]. }
    destruct (prefixb p (fst x)) eqn:Pf.
    + apply prefixb_spec in Pf. destruct Pf as [v Ev]. rewrite Ev, app_nth2, Nat.sub_diag in H by lia.
      destruct v as [|c v]; [rewrite app_nil_r in Ev; rewrite Ev in L; destruct (lex_irrefl _ L)|]. cbn [nth] in H.
      destruct (Z.eqb_spec c slash) as [->|Nc]; cbn [negb] in H.
      * assert (Ex : fst x = p ++ [slash]).
        { destruct (list_eq_dec Z.eq_dec (fst x) (p ++ [slash])) as [E|E]; [exact E|exfalso].
          apply (lex_irrefl p). apply (inv_anc _ _ _ V x p); [left; reflexivity| |exact E]. rewrite Ev. exists v. rewrite <- app_assoc. reflexivity. }
        clear Ev. destruct x as [px n]. cbn [fst snd] in *. subst px.
        assert (Dn : is_dir n = true).
        { destruct n as [f|i g k]; [exfalso|reflexivity]. unfold item_ok in K1. cbn [fst snd] in K1. destruct K1 as (_ & _ & K1). apply K1. apply last_last. }
        assert (DH : dir_here) by (exists n; exact Xall).
        assert (Fd : forall a, a = dir_action st ix sm cf d (p ++ [slash], n) -> found a).
        { intros a0 ->. right. left. exists n. split; [exact Xall|]. split; [exact Dn|reflexivity]. }
        assert (Vkeep : forall p', lex p p' = Lt -> Inv all p' ((p ++ [slash], n) :: R)) by (intros; apply inv_mono with p; assumption).
        unfold dir_action in Fd. cbn [snd] in Fd.
        destruct (d_status d) eqn:Es.
        1-4: injection H as <- <- <-; (split; [apply Fd; reflexivity|]); (split; [reflexivity|]); (split; [intros z Hz; split; [exact Hz|apply Gtx; [exact L|exact Hz]]|intros _; exact Vkeep]).
        destruct (Z.eqb_spec (d_omode d) MODE_TREE) as [To|To]; cbn [orb] in Fd.
        -- injection H as <- <- <-. split; [apply Fd; reflexivity|]. split; [reflexivity|]. split.
           { intros z Hz. assert (Q : In z (items ((p ++ [slash], n) :: R))).
             { change (items (advance_into (p ++ [slash], n) ++ R)) with (items (advance_into (p ++ [slash], n) ++ R)) in Hz. rewrite items_app in Hz.
               change (items ((p ++ [slash], n) :: R)) with (items_at (p ++ [slash]) n ++ items R). apply in_or_app. apply in_app_or in Hz.
               destruct Hz as [Hz|Hz]; [left|right; exact Hz]. apply (items_split (p ++ [slash], n)). right. exact Hz. }
             split; [exact Q|apply Gtx; [exact L|exact Q]]. }
           intros _ p' L'.
           change (Inv all p' (advance_into (p ++ [slash], n) ++ R)).
           apply inv_expand; [apply Vkeep; exact L'|exact Dn|]. unfold bare. cbn [fst]. rewrite strip_slash. exact L'.
        -- destruct ((d_nmode d =? MODE_TREE) || (d_nmode d =? MODE_COMMIT) || (d_omode d =? MODE_COMMIT)) eqn:Eo.
           ++ injection H as <- <- <-. split; [apply Fd; reflexivity|]. split; [reflexivity|]. split; [|intros C; exfalso; apply To; apply C; [exact DH|reflexivity]].
              intros z Hz. assert (Q : In z (items ((p ++ [slash], n) :: R))) by (unfold items; cbn [flat_map]; apply in_or_app; right; exact Hz).
              split; [exact Q|apply Gtx; [exact L|exact Q]].
           ++ injection H as <- <- <-. split; [apply Fd; reflexivity|]. split; [reflexivity|]. split; [intros z Hz; split; [exact Hz|apply Gtx; [exact L|exact Hz]]|intros _; exact Vkeep].
      * injection H as <- <- <-. split; [|split; [reflexivity|split; [intros z Hz; split; [exact Hz|apply Gtx; [exact L|exact Hz]]|intros _ p' L'; apply inv_mono with p; assumption]]].
        right. right. split; [exact NF|]. split; [|reflexivity]. intros [n Hn].
        specialize (Hge _ Hn (ge_dir _)). cbn [fst] in Hge. rewrite Ev in Hge.
        assert (Hc : c < slash).
        { destruct Hge as [G|G].
          - apply app_inv_head in G. injection G as G _. congruence.
          - rewrite lex_app_common in G. cbn in G. destruct (c ?= slash) eqn:Cc; [apply Z.compare_eq in Cc; congruence|exact Cc|discriminate]. }
        apply (Hshadow n Hn x c Xall Hc). rewrite Ev. exists v. rewrite <- app_assoc. reflexivity.
    + injection H as <- <- <-. split; [|split; [reflexivity|split; [intros z Hz; split; [exact Hz|apply Gtx; [exact L|exact Hz]]|intros _ p' L'; apply inv_mono with p; assumption]]].
      right. right. split; [exact NF|]. split; [|reflexivity]. intros [n Hn].
      specialize (Hge _ Hn (ge_dir _)). cbn [fst] in Hge.
      assert (G : lex (p ++ [slash]) (fst x) = Lt). { apply ext_lt; [exact L|]. intros G. apply prefixb_spec in G. congruence. }
      destruct Hge as [Q|Q]; [rewrite Q in G; apply (lex_irrefl _ G)|apply (lex_asym _ _ G Q)].
Qed.
End Walk.
