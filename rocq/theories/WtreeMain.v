(** write_tree writes trees that stand for the index. *)
From Verif Require Import Base Arr Str CStr VectorModel HashModel StrMap IndexModel IndexSpec TreeModel TreeSpec TreeProofs TreeBuild TreeProps WtreeModel WtreeSpec WtreeProofs ReflogProofs.
From Coq Require Import Sorting.Sorted.

Section Main.
Context (nhash : list Z -> nat) (name_ok : list Z -> bool) (sz : nat) (oid_of : list Z -> list Z) (id_of : Z -> list Z) (obj_ok : odb -> list Z -> Z -> bool).
Context (Hslash : forall n, name_ok n = true -> ~ In (ch "/") n) (Hid : forall x, length (id_of x) = sz) (Hoid : forall b, length (oid_of b) = sz).
Notation open_tree := (open_tree sz oid_of). Notation deep := (deep sz oid_of).
Notation write_loop := (write_loop nhash name_ok oid_of id_of obj_ok).
Definition nocoll (st : odb) : Prop := forall a b, In a st -> In b st -> oid_of a = oid_of b -> a = b.

(** [oid] is a tree whose files are those of the entries in [d]. *)
Definition standing (ents : list entry) (st : odb) (d oid : list Z) : Prop :=
  exists es, deep st oid es /\ forall p m o, holds (open_tree st) es p m o <-> exists e, In e ents /\ e_path e = pre d ++ p /\ e_mode e = m /\ id_of (e_data e) = o.
Lemma standing_mono ents st x d oid : standing ents st d oid -> standing ents (st ++ x) d oid.
Proof.
  intros (es & D & H). exists es. split; [now apply deep_mono|]. intros p m o. rewrite <- H. split; [now apply (holds_back sz oid_of st x oid es)|apply holds_mono].
Qed.
Lemma loop_store ents cache : forall f d i bld st r st', write_loop ents cache f d i bld st = Ok (r, st') -> exists x, st' = st ++ x.
Proof.
  induction f as [|f IH]; intros d i bld st r st' H; [discriminate|]. cbn [WtreeModel.write_loop] in H.
  assert (Fin : (do b <- builder_write bld ;; Ok (Some (oid_of b, i), st ++ [b])) = Ok (r, st') -> exists x, st' = st ++ x).
  { destruct (builder_write bld) as [b| | |]; try discriminate. cbn [bindr]. intros E. apply Ok_inj in E. injection E as _ <-. eauto. }
  destruct (nth_error ents i) as [e|]; [|now apply Fin]. destruct (outside d (e_path e)); [now apply Fin|]. clear Fin.
  destruct (before_slash (below d (e_path e))) as [comp|].
  - set (sub := firstn _ _) in *. match type of H with bindr ?W _ = _ => destruct W as [[w st1]| | |] eqn:EW; try discriminate end. cbn [bindr] in H.
    assert (S1 : exists x, st1 = st ++ x).
    { destruct (cache_get cache sub) as [c|]; [destruct (0 <=? c_count c)|]; [|eapply IH; exact EW|eapply IH; exact EW]. apply Ok_inj in EW. injection EW as _ <-. exists []. now rewrite app_nil_r. }
    destruct S1 as (x & ->). destruct w as [[oid j]|]; [|apply Ok_inj in H; injection H as _ <-; eauto].
    destruct (append_entry _ _ _ _ _ _ _ _) as [[err b2]| | |]; try discriminate. cbn [bindr] in H. destruct (err <? 0); [apply Ok_inj in H; injection H as _ <-; eauto|].
    apply IH in H. destruct H as (y & ->). exists (x ++ y). now rewrite app_assoc.
  - destruct (append_entry _ _ _ _ _ _ _ _) as [[err b2]| | |]; try discriminate. cbn [bindr] in H. destruct (err <? 0); [apply Ok_inj in H; injection H as _ <-; exists []; now rewrite app_nil_r|].
    now apply IH in H.
Qed.
Lemma nocoll_app st x : nocoll (st ++ x) -> nocoll st.
Proof. intros H a b Ha Hb. apply H; apply in_or_app; auto. Qed.

Section Loop.
Variables (ents : list entry) (cache : option tcache).
Hypothesis Hsort : forall i j a b, (i < j)%nat -> nth_error ents i = Some a -> nth_error ents j = Some b -> lex (e_path a) (e_path b) = Lt.
Hypothesis Hplain : forall e, In e ents -> plain (e_path e).
Hypothesis Hfree : forall a b, In a ents -> In b ents -> ~ under (e_path a) (e_path b).
Hypothesis Hmode : forall e, In e ents -> ~ isdir (e_mode e).
Hypothesis Hcap : 4 + 4 * (Z.of_nat (length ents) + 1) <= 2 ^ 30.
Definition cached_right (st : odb) : Prop := forall d node, d <> [] -> tidy d -> cache_get cache d = Some node -> 0 <= c_count node -> standing ents st d (c_oid node).

(** Directories are runs of entries. *)
Lemma lex_app_l a : forall b c, lex (a ++ b) (a ++ c) = lex b c.
Proof. induction a as [|x a IH]; intros b c; [reflexivity|]. cbn. rewrite Z.compare_refl. apply IH. Qed.
Lemma lex_between p : forall x y z, lex x y = Lt -> lex y z = Lt -> (exists r, x = p ++ r) -> (exists r, z = p ++ r) -> exists r, y = p ++ r.
Proof.
  induction p as [|c p IH]; intros x y z L1 L2 [rx ->] [rz ->]; [exists y; reflexivity|]. cbn [app] in *. destruct y as [|d y]; [cbn in L1; discriminate|]. cbn in L1, L2.
  destruct (Z.compare_spec c d), (Z.compare_spec d c); subst; try discriminate; try lia. destruct (IH (p ++ rx) y (p ++ rz)) as [r ->]; eauto.
Qed.
Lemma run i j k a b c d : (i < j < k)%nat -> nth_error ents i = Some a -> nth_error ents j = Some b -> nth_error ents k = Some c -> indir d (e_path a) -> indir d (e_path c) -> indir d (e_path b).
Proof. intros [H1 H2] A B C. unfold indir. apply (lex_between (pre d) _ _ _ (Hsort _ _ _ _ H1 A B) (Hsort _ _ _ _ H2 B C)). Qed.
Lemma same_path i j a b : nth_error ents i = Some a -> nth_error ents j = Some b -> e_path a = e_path b -> i = j.
Proof.
  intros A B E. destruct (lt_eq_lt_dec i j) as [[L|]|L]; auto; exfalso.
  - pose proof (Hsort _ _ _ _ L A B) as Q. rewrite E, lex_refl in Q. discriminate.
  - pose proof (Hsort _ _ _ _ L B A) as Q. rewrite E, lex_refl in Q. discriminate.
Qed.
Lemma next_dir_spec d : forall l i, (forall k, nth_error l k = nth_error ents (i + k)) -> let j := next_dir d l i in
  (i <= j)%nat /\ (j <= i + length l)%nat /\ (forall k e, (i <= k < j)%nat -> nth_error ents k = Some e -> indir d (e_path e)) /\ (forall e, nth_error ents j = Some e -> ~ indir d (e_path e)).
Proof.
  induction l as [|e l IH]; intros i Hl; cbn [next_dir]; cbv zeta.
  - split; [lia|]. split; [cbn; lia|]. split; [lia|]. intros x Hx. specialize (Hl 0%nat). rewrite Nat.add_0_r in Hl. cbn in Hl. congruence.
  - pose proof (Hl 0%nat) as H0. rewrite Nat.add_0_r in H0. cbn in H0. destruct (outside d (e_path e)) eqn:E.
    + split; [lia|]. split; [lia|]. split; [lia|]. intros x Hx Hin. apply outside_spec in Hin. rewrite <- H0 in Hx. injection Hx as <-. congruence.
    + destruct (IH (S i)) as (J1 & J2 & J3 & J4). { intros k. specialize (Hl (S k)). cbn in Hl. rewrite Hl. f_equal. lia. }
      split; [lia|]. split; [cbn [length]; lia|]. split; auto. intros k x Hk Hx. destruct (Nat.eq_dec k i) as [->|]; [|apply (J3 k x); auto; lia]. rewrite <- H0 in Hx. injection Hx as <-. now apply outside_spec.
Qed.

(** The names put into the builder from the entries [s, i) of directory [d]. *)
Record filled (d : list Z) (s i : nat) (M : entries_map) (st : odb) : Prop := {
  fl_le : (s <= i <= length ents)%nat;
  fl_first : forall k e, (k < s)%nat -> nth_error ents k = Some e -> ~ indir d (e_path e);
  fl_in : forall k e, (s <= k < i)%nat -> nth_error ents k = Some e -> indir d (e_path e);
  fl_file : forall n m o, M n = Some (m, o) -> ~ isdir m -> exists k e, (s <= k < i)%nat /\ nth_error ents k = Some e /\ e_path e = pre d ++ n /\ e_mode e = m /\ id_of (e_data e) = o;
  fl_dir : forall n m o, M n = Some (m, o) -> isdir m -> m = 16384 /\ standing ents st (pre d ++ n) o /\ (exists k e, (s <= k < i)%nat /\ nth_error ents k = Some e /\ indir (pre d ++ n) (e_path e)) /\
     forall k e, (i <= k)%nat -> nth_error ents k = Some e -> ~ indir (pre d ++ n) (e_path e);
  fl_all : forall k e r, (s <= k < i)%nat -> nth_error ents k = Some e -> e_path e = pre d ++ r ->
     (~ In 47 r /\ M r = Some (e_mode e, id_of (e_data e)) /\ ~ isdir (e_mode e)) \/ exists n t o, r = n ++ 47 :: t /\ M n = Some (16384, o);
  fl_fine : all_fine sz M }.

Lemma filled_mono d s i M st x : filled d s i M st -> filled d s i M (st ++ x).
Proof.
  intros [H1 H2 H3 H4 H5 H6 H7]. constructor; auto. intros n m o E Hd. destruct (H5 n m o E Hd) as (A & B & C & D). do 2 (split; auto). now apply standing_mono.
Qed.
Lemma under_indir a b : a <> [] -> (under a b <-> indir a b).
Proof. intros N. unfold under, indir. rewrite pre_ne by auto. split; intros [r ->]; exists r; now rewrite <- app_assoc. Qed.

(** A name is put only once. *)
Lemma fresh_file d s i M st e n : filled d s i M st -> nth_error ents i = Some e -> e_path e = pre d ++ n -> n <> [] -> M n = None.
Proof.
  intros F Hi He Nn. destruct (M n) as [[m o]|] eqn:E; auto. exfalso. destruct (Z.eq_dec (Z.land m 61440) 16384) as [Hd|Hd].
  - destruct (fl_dir _ _ _ _ _ F n m o E Hd) as (_ & _ & (k & x & Hk & Hx & Hin) & _). apply (Hfree e x); [eapply nth_error_In; eauto|eapply nth_error_In; eauto|]. rewrite He. apply under_indir; auto. now apply sub_ne.
  - destruct (fl_file _ _ _ _ _ F n m o E Hd) as (k & x & Hk & Hx & Hp & _). rewrite <- He in Hp. pose proof (same_path _ _ _ _ Hx Hi Hp). lia.
Qed.
Lemma fresh_dir d s i M st e n : filled d s i M st -> nth_error ents i = Some e -> indir (pre d ++ n) (e_path e) -> n <> [] -> M n = None.
Proof.
  intros F Hi Hin Nn. destruct (M n) as [[m o]|] eqn:E; auto. exfalso. destruct (Z.eq_dec (Z.land m 61440) 16384) as [Hd|Hd].
  - destruct (fl_dir _ _ _ _ _ F n m o E Hd) as (_ & _ & _ & N). apply (N i e); auto.
  - destruct (fl_file _ _ _ _ _ F n m o E Hd) as (k & x & Hk & Hx & Hp & _). apply (Hfree x e); [eapply nth_error_In; eauto|eapply nth_error_In; eauto|]. rewrite Hp. apply under_indir; auto. now apply sub_ne.
Qed.
Lemma mset_same M n v k : mset M n v k = if leqb k n then v else M k. Proof. reflexivity. Qed.

Lemma put_file d s i M st e n : filled d s i M st -> nth_error ents i = Some e -> e_path e = pre d ++ n -> n <> [] -> ~ In 47 n -> ~ isdir (e_mode e) ->
  fine sz n (e_mode e) (id_of (e_data e)) -> filled d s (S i) (mset M n (Some (e_mode e, id_of (e_data e)))) st.
Proof.
  intros F Hi He Nn Sn Hm Hf. pose proof (fresh_file _ _ _ _ _ _ _ F Hi He Nn) as Fr. assert (Li : (i < length ents)%nat) by (apply nth_error_Some; congruence). constructor.
  - destruct (fl_le _ _ _ _ _ F). lia.
  - apply (fl_first _ _ _ _ _ F).
  - intros k x Hk Hx. destruct (Nat.eq_dec k i) as [->|]; [|apply (fl_in _ _ _ _ _ F k x); auto; lia]. rewrite Hi in Hx. injection Hx as <-. exists n. exact He.
  - intros n' m o E Hd. rewrite mset_same in E. destruct (leqb n' n) eqn:Q.
    + apply leqb_spec in Q. subst n'. injection E as <- <-. exists i, e. repeat (split; auto). destruct (fl_le _ _ _ _ _ F). lia.
    + destruct (fl_file _ _ _ _ _ F _ _ _ E Hd) as (k & x & Hk & R). exists k, x. split; [lia|auto].
  - intros n' m o E Hd. rewrite mset_same in E. destruct (leqb n' n) eqn:Q.
    + injection E as <- <-. contradiction.
    + destruct (fl_dir _ _ _ _ _ F _ _ _ E Hd) as (A & B & (k & x & Hk & R) & C). do 2 (split; auto). split; [exists k, x; split; [lia|auto]|]. intros k' x' Hk'. apply C. lia.
  - intros k x r Hk Hx Hr. destruct (Nat.eq_dec k i) as [->|].
    + rewrite Hi in Hx. injection Hx as <-. rewrite He in Hr. apply app_inv_head in Hr. subst r. left. split; auto. rewrite mset_same, leqb_refl. auto.
    + destruct (fl_all _ _ _ _ _ F k x r ltac:(lia) Hx Hr) as [(A & B & C)|(n' & t & o & A & B)].
      * left. split; auto. split; auto. rewrite mset_same. destruct (leqb r n) eqn:Q; auto. apply leqb_spec in Q. subst r. congruence.
      * right. exists n', t, o. split; auto. rewrite mset_same. destruct (leqb n' n) eqn:Q; auto. apply leqb_spec in Q. subst n'. congruence.
  - apply mset_fine; [apply (fl_fine _ _ _ _ _ F)|]. intros m o E. injection E as <- <-. exact Hf.
Qed.
Lemma put_dir d s i j M st n oid : filled d s i M st -> (i < j <= length ents)%nat -> n <> [] -> ~ In 47 n ->
  (forall k e, (i <= k < j)%nat -> nth_error ents k = Some e -> indir (pre d ++ n) (e_path e)) -> (forall e, nth_error ents j = Some e -> ~ indir (pre d ++ n) (e_path e)) ->
  standing ents st (pre d ++ n) oid -> fine sz n 16384 oid -> filled d s j (mset M n (Some (16384, oid))) st.
Proof.
  intros F Hj Nn Sn Hin Hout Hs Hf.
  assert (He : exists e, nth_error ents i = Some e). { destruct (nth_error ents i) eqn:E; eauto. apply nth_error_None in E. lia. } destruct He as (e & He).
  pose proof (fresh_dir _ _ _ _ _ _ _ F He (Hin i e ltac:(lia) He) Nn) as Fr. pose proof (fl_le _ _ _ _ _ F) as Le. constructor.
  - lia.
  - apply (fl_first _ _ _ _ _ F).
  - intros k x Hk Hx. destruct (le_lt_dec i k) as [L|L]; [|apply (fl_in _ _ _ _ _ F k x); auto; lia]. apply (indir_sub d n); auto. apply (Hin k x); auto; lia.
  - intros n' m o E Hd. rewrite mset_same in E. destruct (leqb n' n) eqn:Q.
    + injection E as <- <-. exfalso. apply Hd. reflexivity.
    + destruct (fl_file _ _ _ _ _ F _ _ _ E Hd) as (k & x & Hk & R). exists k, x. split; [lia|auto].
  - intros n' m o E Hd. rewrite mset_same in E. destruct (leqb n' n) eqn:Q.
    + apply leqb_spec in Q. subst n'. injection E as <- <-. do 2 (split; auto). split; [exists i, e; split; [lia|]; split; auto; apply (Hin i e); auto; lia|].
      intros k x Hk Hx Hi. destruct (Nat.eq_dec k j) as [->|N]; [exact (Hout x Hx Hi)|]. assert (Hy : exists y, nth_error ents j = Some y). { destruct (nth_error ents j) eqn:E; eauto. apply nth_error_None in E. assert (k < length ents)%nat by (apply nth_error_Some; congruence). lia. }
      destruct Hy as (y & Hy). apply (Hout y Hy). apply (run i j k e y x); auto; [lia|]. apply (Hin i e); auto; lia.
    + destruct (fl_dir _ _ _ _ _ F _ _ _ E Hd) as (A & B & (k & x & Hk & R) & C). do 2 (split; auto). split; [exists k, x; split; [lia|auto]|]. intros k' x' Hk'. apply C. lia.
  - intros k x r Hk Hx Hr. destruct (le_lt_dec i k) as [L|L].
    + destruct (Hin k x ltac:(lia) Hx) as (t & Ht). rewrite pre_sub in Ht by auto. rewrite Hr in Ht. rewrite <- app_assoc in Ht. apply app_inv_head in Ht. right. exists n, t, oid. rewrite <- app_assoc in Ht. split; auto. rewrite mset_same, leqb_refl. auto.
    + destruct (fl_all _ _ _ _ _ F k x r ltac:(lia) Hx Hr) as [(A & B & C)|(n' & t & o & A & B)].
      * left. split; auto. split; auto. rewrite mset_same. destruct (leqb r n) eqn:Q; auto. apply leqb_spec in Q. subst r. congruence.
      * right. exists n', t, o. split; auto. rewrite mset_same. destruct (leqb n' n) eqn:Q; auto. apply leqb_spec in Q. subst n'. congruence.
  - apply mset_fine; [apply (fl_fine _ _ _ _ _ F)|]. intros m o E. injection E as <- <-. exact Hf.
Qed.

(** The tree written at the end of a directory. *)
Lemma finish_ok d s i M st bld c b : filled d s i M st -> rep nhash bld (lift M) c -> (forall e, nth_error ents i = Some e -> ~ indir d (e_path e)) -> (i = length ents \/ s < i)%nat ->
  builder_write bld = Ok b -> nocoll (st ++ [b]) -> standing ents (st ++ [b]) d (oid_of b).
Proof.
  intros F R Hout Hs Hw Nc. destruct (builder_write_spec nhash bld M c R (all_fine_good sz _ (fl_fine _ _ _ _ _ F))) as (W & _). destruct (W b Hw) as (es & Ca & Hes & Eb).
  assert (Hf : Forall (fun e => fine sz (te_name e) (te_attr e) (te_oid e)) es). { apply Forall_forall. intros e He. apply (fl_fine _ _ _ _ _ F). now apply Hes. }
  assert (Tb : tree_bytes es b) by (subst b; eapply put_entries_bytes; eauto).
  assert (Pa : parse_raw sz b = Ok es) by (apply tree_parse_exact; apply (bytes_text nhash name_ok (fun _ _ => true) Hslash); auto).
  assert (Nd : NoDup (map te_name es)).
  { clear - Ca Hes. assert (G : forall l, canonical l -> (forall e, In e l -> M (te_name e) = Some (te_attr e, te_oid e)) -> NoDup (map te_name l)).
    { induction 1 as [|x l C IH Hx]; intros HM; cbn; constructor; [|apply IH; intros; apply HM; now right]. intros Hin. apply in_map_iff in Hin. destruct Hin as (y & En & Hy). rewrite Forall_forall in Hx. specialize (Hx y Hy).
      assert (x = y). { pose proof (HM x (or_introl eq_refl)) as H1. pose proof (HM y (or_intror Hy)) as H2. rewrite En in H2. rewrite H1 in H2. injection H2 as H2 H3. destruct x, y; cbn in *; congruence. } subst y. rewrite lex_refl in Hx. discriminate. }
    apply G; auto. intros e He. now apply Hes. }
  assert (Ow : open_raw oid_of (st ++ [b]) (oid_of b) = Some b).
  { unfold open_raw. destruct (find _ _) as [x|] eqn:Q.
    - destruct (find_some _ _ Q) as [Hx Ex]. apply leqb_spec in Ex. f_equal. apply Nc; auto. apply in_or_app. right. now left.
    - pose proof (find_none _ _ Q b) as Z0. cbn in Z0. rewrite leqb_refl in Z0. discriminate Z0. apply in_or_app. right. now left. }
  assert (Out : forall k e, (i <= k)%nat -> nth_error ents k = Some e -> ~ indir d (e_path e)).
  { intros k e Hk He Hin. assert (Lk : (k < length ents)%nat) by (apply nth_error_Some; congruence). destruct Hs as [->|Hs]; [lia|]. destruct (Nat.eq_dec k i) as [->|N]; [exact (Hout e He Hin)|].
    assert (Hy : exists y, nth_error ents i = Some y). { destruct (nth_error ents i) eqn:E; eauto. apply nth_error_None in E. lia. } destruct Hy as (y & Hy).
    assert (Hx : exists x, nth_error ents s = Some x). { destruct (nth_error ents s) eqn:E; eauto. apply nth_error_None in E. lia. } destruct Hx as (x & Hx).
    apply (Hout y Hy). apply (run s i k x y e); auto; [lia|]. apply (fl_in _ _ _ _ _ F s x); auto; lia. }
  pose proof (filled_mono _ _ _ _ _ [b] F) as F'.
  assert (D : deep (st ++ [b]) (oid_of b) es).
  { econstructor; eauto. intros m n o Hin Hd. apply Hes in Hin. cbn [te_name te_attr te_oid] in Hin. destruct (fl_dir _ _ _ _ _ F' n m o Hin Hd) as (-> & (sub & Ds & Hh) & (k & e & Hk & He & (r & Hr)) & _). split; auto. exists sub. split; auto. exists r, (e_mode e), (id_of (e_data e)). apply Hh. exists e. split; [eapply nth_error_In; eauto|auto]. }
  exists es. split; auto. intros p m o. split.
  - intros H. destruct (holds_inv _ _ _ _ _ H) as [(Hin & Hd)|(m0 & n0 & o0 & sub & q & -> & Hin & Hd & Ho & Hsub)]; apply Hes in Hin; cbn [te_name te_attr te_oid] in Hin.
    + destruct (fl_file _ _ _ _ _ F' _ _ _ Hin Hd) as (k & e & Hk & He & A & B & C). exists e. split; [eapply nth_error_In; eauto|auto].
    + destruct (fl_dir _ _ _ _ _ F' _ _ _ Hin Hd) as (-> & (sub' & Ds & Hh) & _). rewrite (deep_open _ _ _ _ _ Ds) in Ho. injection Ho as ->. apply Hh in Hsub. destruct Hsub as (e & A & B & C). exists e. split; auto. split; auto. rewrite B, pre_sub by (destruct (fl_fine _ _ _ _ _ F' _ _ _ Hin) as (_ & _ & Ln & _); intros ->; cbn in Ln; lia). now rewrite <- !app_assoc.
  - intros (e & Hin & Hp & Hm & Ho). destruct (In_nth_error _ _ Hin) as (k & Hk). assert (Ki : (s <= k < i)%nat).
    { destruct (le_lt_dec i k) as [L|L]; [exfalso; apply (Out k e L Hk); rewrite Hp; now exists p|]. destruct (le_lt_dec s k) as [L2|L2]; [lia|]. exfalso. apply (fl_first _ _ _ _ _ F k e L2 Hk). rewrite Hp. now exists p. }
    destruct (fl_all _ _ _ _ _ F' k e p Ki Hk Hp) as [(Sp & Mp & Dp)|(n & t & oo & -> & Mn)].
    + apply h_file; [|congruence]. apply Hes. cbn [te_name te_attr te_oid]. congruence.
    + assert (Hd : isdir 16384) by reflexivity. destruct (fl_dir _ _ _ _ _ F' n _ _ Mn Hd) as (_ & (sub & Ds & Hh) & _). change (n ++ 47 :: t) with (n ++ bs "/" ++ t). eapply h_below; [apply Hes; exact Mn|exact Hd|apply (deep_open _ _ _ _ _ Ds)|].
      apply Hh. exists e. split; auto. rewrite Hp, pre_sub by (destruct (fl_fine _ _ _ _ _ F' _ _ _ Mn) as (_ & _ & Ln & _); intros ->; cbn in Ln; lia). rewrite <- !app_assoc. auto.
Qed.

Lemma sub_filled d s i M st e n t : filled d s i M st -> nth_error ents i = Some e -> e_path e = pre d ++ n ++ 47 :: t -> n <> [] -> ~ In 47 n -> filled (pre d ++ n) i i mempty st.
Proof.
  intros F Hi He Nn Sn. assert (Li : (i < length ents)%nat) by (apply nth_error_Some; congruence). pose proof (fl_le _ _ _ _ _ F) as Le. constructor; try (intros; discriminate); try (intros; lia).
  intros k x Hk Hx Hin. destruct (le_lt_dec s k) as [L|L]; [|apply (fl_first _ _ _ _ _ F k x L Hx); now apply (indir_sub d n)].
  destruct Hin as (r & Hr). rewrite pre_sub in Hr by auto. rewrite <- !app_assoc in Hr. change ([47] ++ r) with (47 :: r) in Hr.
  destruct (fl_all _ _ _ _ _ F k x _ (conj L Hk) Hx Hr) as [(A & _)|(n' & t' & o & E & Mn)]; [apply A; apply in_or_app; right; now left|].
  assert (Sn' : ~ In 47 n') by (apply (fl_fine _ _ _ _ _ F _ _ _ Mn)). apply nosep_inj in E; auto. destruct E as [<- _].
  destruct (fl_dir _ _ _ _ _ F n _ _ Mn eq_refl) as (_ & _ & _ & C). apply (C i e); auto. exists t. rewrite pre_sub by auto. now rewrite He, <- !app_assoc.
Qed.
Lemma standing_len st d oid : standing ents st d oid -> length oid = sz.
Proof. intros (es & D & _). destruct (deep_inv _ _ _ _ _ D) as (b & A & _). destruct (raw_id _ _ _ _ A) as [<- _]. apply Hoid. Qed.
Lemma append_ok st bld M c n oid m err bld' : rep nhash bld (lift M) c -> 4 + 4 * Z.of_nat (c + 1) <= 2 ^ 30 -> cstr n -> Z.of_nat (length n) <= 65535 -> length oid = sz ->
  append_entry nhash name_ok (obj_ok st) bld n oid m true = Ok (err, bld') -> (err <? 0) = false -> fine sz n m oid /\ rep nhash bld' (lift (mset M n (Some (m, oid)))) (c + 1).
Proof.
  intros R Hc Cn Ln Lo H He. unfold append_entry in H. cbv zeta iota in H. destruct (check_entry_code name_ok (obj_ok st) n oid m) as [E|E]; rewrite E in H.
  - change (0 <? 0) with false in H. cbv iota in H. destruct (rep_put nhash bld _ c n (mkte m n oid) R Hc) as (t & Et & Rt). rewrite Et in H. cbn [bindr] in H. apply Ok_inj in H. injection H as <- <-. split.
    + apply (ok_insert_fine nhash name_ok (obj_ok st) Hslash); auto. unfold ok_insert. now rewrite E.
    + eapply rep_ext; [|exact Rt]. intros k. rewrite lift_mset. reflexivity.
  - change (-1 <? 0) with true in H. cbv iota in H. apply Ok_inj in H. injection H as <- <-. discriminate.
Qed.
Lemma cached_mono st x : cached_right st -> cached_right (st ++ x).
Proof. intros H d node A B C D. apply standing_mono. apply H; auto. Qed.
Lemma incl_cstr (a b : list Z) : cstr b -> incl a b -> cstr a.
Proof. unfold cstr. rewrite !Forall_forall. auto. Qed.

Lemma loop_ok : forall f d s i M bld c st oid j st', tidy d -> filled d s i M st -> rep nhash bld (lift M) c -> (c <= i - s)%nat ->
  (s < i \/ d = [] \/ exists e, nth_error ents i = Some e /\ indir d (e_path e))%nat -> cached_right st -> nocoll st' ->
  write_loop ents cache f d i bld st = Ok (Some (oid, j), st') ->
  (i <= j <= length ents)%nat /\ (forall k e, (i <= k < j)%nat -> nth_error ents k = Some e -> indir d (e_path e)) /\ (forall e, nth_error ents j = Some e -> ~ indir d (e_path e)) /\ standing ents st' d oid.
Proof.
  induction f as [|f IH]; intros d s i M bld c st oid j st' Td F R Hc Hs Cr Nc H; [discriminate|]. cbn [WtreeModel.write_loop] in H. pose proof (fl_le _ _ _ _ _ F) as Le.
  assert (Fin : (forall e, nth_error ents i = Some e -> ~ indir d (e_path e)) -> (do b <- builder_write bld ;; Ok (Some (oid_of b, i), st ++ [b])) = Ok (Some (oid, j), st') ->
     (i <= j <= length ents)%nat /\ (forall k e, (i <= k < j)%nat -> nth_error ents k = Some e -> indir d (e_path e)) /\ (forall e, nth_error ents j = Some e -> ~ indir d (e_path e)) /\ standing ents st' d oid).
  { intros Out E. destruct (builder_write bld) as [b| | |] eqn:Eb; try discriminate. cbn [bindr] in E. apply Ok_inj in E. injection E as <- <- <-. split; [lia|]. split; [intros; lia|]. split; auto.
    eapply finish_ok; eauto. destruct Hs as [Hs|[->|(e & He & Hi)]]; [right; auto| |exfalso; exact (Out e He Hi)]. left. destruct (nth_error ents i) as [e|] eqn:Ee; [exfalso; apply (Out e eq_refl); now exists (e_path e)|]. apply nth_error_None in Ee. lia. }
  destruct (nth_error ents i) as [e|] eqn:Ei; [|apply Fin; auto; discriminate]. assert (Li : (i < length ents)%nat) by (apply nth_error_Some; congruence).
  destruct (outside d (e_path e)) eqn:Eo.
  { apply Fin; auto. intros x Hx Hin. injection Hx as <-. apply outside_spec in Hin. congruence. }
  clear Fin. apply outside_spec in Eo. destruct Eo as (r & Er). pose proof (Hplain e (nth_error_In _ _ Ei)) as Pl. rewrite Er in H, Pl. rewrite below_spec in H by exact Pl.
  pose proof (rest_split _ _ Pl) as Rs. destruct Pl as (Pc & Pn & Plen). rewrite app_length in Plen. unfold cstr in Pc. apply Forall_app in Pc. destruct Pc as [_ Pc].
  pose proof (before_slash_spec r) as Bs. destruct (before_slash r) as [comp|].
  - destruct Bs as (Sn & t & ->). rewrite subdir_spec in H. rewrite split_app in Rs by auto. inversion Rs as [|? ? Nn _]; subst. rewrite last_split in H by auto.
    assert (Hind : indir (pre d ++ comp) (e_path e)). { exists t. rewrite pre_sub by auto. now rewrite Er, <- !app_assoc. }
    match type of H with bindr ?W _ = _ => destruct W as [[w st1]| | |] eqn:EW; try discriminate end. cbn [bindr] in H. destruct w as [[oid1 j1]|]; [|discriminate].
    destruct (append_entry _ _ _ _ _ _ _ _) as [[err b2]| | |] eqn:Ea; try discriminate. cbn [bindr] in H. destruct (err <? 0) eqn:Ee; [discriminate|].
    destruct (loop_store _ _ _ _ _ _ _ _ _ H) as (y & Ey).
    assert (Sub : (exists x, st1 = st ++ x) /\ (i <= j1 <= length ents)%nat /\ (forall k x, (i <= k < j1)%nat -> nth_error ents k = Some x -> indir (pre d ++ comp) (e_path x)) /\
      (forall x, nth_error ents j1 = Some x -> ~ indir (pre d ++ comp) (e_path x)) /\ standing ents st1 (pre d ++ comp) oid1).
    { assert (Rec : write_loop ents cache f (pre d ++ comp) i hinit st = Ok (Some (oid1, j1), st1) -> (exists x, st1 = st ++ x) /\ (i <= j1 <= length ents)%nat /\ (forall k x, (i <= k < j1)%nat -> nth_error ents k = Some x -> indir (pre d ++ comp) (e_path x)) /\
      (forall x, nth_error ents j1 = Some x -> ~ indir (pre d ++ comp) (e_path x)) /\ standing ents st1 (pre d ++ comp) oid1).
      { intros Q. split; [eapply loop_store; exact Q|]. eapply (IH (pre d ++ comp) i i mempty hinit 0%nat); [now apply tidy_sub|eapply sub_filled; eauto|apply rep_init|lia|right; right; eauto|exact Cr| |exact Q]. subst st'. now apply nocoll_app in Nc. }
      destruct (cache_get cache (pre d ++ comp)) as [nd|] eqn:Ec; [|now apply Rec]. destruct (0 <=? c_count nd) eqn:Ecc; [|now apply Rec]. clear Rec.
      apply Ok_inj in EW. injection EW as <- <- <-. split; [exists []; now rewrite app_nil_r|].
      destruct (next_dir_spec (pre d ++ comp) (skipn i ents) i) as (J1 & J2 & J3 & J4); [intros k; clear; revert i k; induction ents as [|x l IHl]; intros [|i] k; cbn [skipn Nat.add]; auto; [destruct k; reflexivity|apply IHl]|].
      rewrite skipn_length in J2. split; [split; [exact J1|lia]|]. split; [exact J3|]. split; [exact J4|]. apply Cr; auto; [now apply sub_ne|now apply tidy_sub|lia]. }
    destruct Sub as ((x & Ex) & Hj & Hin & Hout & St). subst st1.
    assert (Lt : (i < j1)%nat). { destruct (Nat.eq_dec i j1) as [<-|]; [|lia]. exfalso. exact (Hout e Ei Hind). }
    rewrite app_length in Plen. apply Forall_app in Pc. destruct Pc as [Pc _].
    destruct (append_ok _ _ M c _ _ _ _ _ R ltac:(lia) Pc ltac:(lia) (standing_len _ _ _ St) Ea Ee) as [Fi R2].
    pose proof (put_dir d s i j1 M (st ++ x) comp oid1 (filled_mono _ _ _ _ _ x F) (conj Lt (proj2 Hj)) Nn Sn Hin Hout St Fi) as F2.
    destruct (IH d s j1 _ b2 (c + 1)%nat (st ++ x) oid j st' Td F2 R2 ltac:(lia) ltac:(left; lia) (cached_mono _ _ Cr) Nc H) as (A & B & C & D).
    split; [lia|]. split; [|split; auto]. intros k z Hk Hz. destruct (le_lt_dec j1 k) as [L|L]; [apply (B k z); [lia|exact Hz]|]. apply (indir_sub d comp); auto. apply (Hin k z); auto. lia.
  - destruct (append_entry _ _ _ _ _ _ _ _) as [[err b2]| | |] eqn:Ea; try discriminate. cbn [bindr] in H. destruct (err <? 0) eqn:Ee; [discriminate|].
    assert (Nr : r <> []). { intros ->. cbn in Rs. inversion Rs; congruence. }
    destruct (append_ok _ _ M c _ _ _ _ _ R ltac:(lia) Pc ltac:(lia) (Hid _) Ea Ee) as [Fi R2].
    pose proof (put_file d s i M st e r F Ei Er Nr Bs (Hmode _ (nth_error_In _ _ Ei)) Fi) as F2.
    destruct (IH d s (S i) _ b2 (c + 1)%nat st oid j st' Td F2 R2 ltac:(lia) ltac:(left; lia) Cr Nc H) as (A & B & C & D).
    split; [lia|]. split; [|split; auto]. intros k z Hk Hz. destruct (Nat.eq_dec k i) as [->|]; [|apply (B k z); [lia|exact Hz]]. rewrite Ei in Hz. injection Hz as <-. now exists r.
Qed.
Lemma root_ok st oid j st' : (forall t, cache = Some t -> find_child (c_kids t) [] = None) -> cached_right st -> nocoll st' ->
  write_root nhash name_ok oid_of id_of obj_ok ents cache st = Ok (Some (oid, j), st') -> standing ents st' [] oid.
Proof.
  intros Hn Cr Nc H. unfold write_root in H. assert (E : cache_get cache [] = None). { unfold cache_get. destruct cache as [t|]; auto. cbn [split cache_at]. now rewrite (Hn t eq_refl). } rewrite E in H.
  eapply (loop_ok _ [] 0%nat 0%nat mempty hinit 0%nat); [constructor| |apply rep_init|lia|auto|exact Cr|exact Nc|exact H].
  constructor; try (intros; discriminate); try (intros; lia).
Qed.
Lemma root_store st r st' : write_root nhash name_ok oid_of id_of obj_ok ents cache st = Ok (r, st') -> exists x, st' = st ++ x.
Proof.
  unfold write_root. intros H. destruct (cache_get cache []) as [c|]; [destruct (0 <=? c_count c)|]; try (eapply loop_store; exact H). apply Ok_inj in H. injection H as _ <-. exists []. now rewrite app_nil_r.
Qed.
End Loop.
End Main.
