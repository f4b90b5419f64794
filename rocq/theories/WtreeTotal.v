(** write_tree ends, and succeeds when the entries can be put into trees. *)
From Verif Require Import Base Arr Str CStr VectorModel VectorSpec VectorProofs HashModel StrMap IndexModel IndexSpec IndexProofs IndexMain TreeModel TreeSpec TreeProofs TreeBuild TreeProps WtreeModel WtreeSpec WtreeProofs WtreeMain WtreeState ReflogProofs.
From Coq Require Import Sorting.Sorted.

Section Total.
Context (nhash : list Z -> nat) (name_ok : list Z -> bool) (sz : nat) (oid_of : list Z -> list Z) (id_of : Z -> list Z) (obj_ok : odb -> list Z -> Z -> bool).
Context (Hslash : forall n, name_ok n = true -> ~ In (ch "/") n) (Hid : forall x, length (id_of x) = sz) (Hoid : forall b, length (oid_of b) = sz).
Context (Hmono : forall st x id ty, obj_ok st id ty = true -> obj_ok (st ++ x) id ty = true).
Context (Htree : forall st b, In b st -> obj_ok st (oid_of b) 2 = true) (Hzero : forall b, forallb (fun c => c =? 0) (oid_of b) = false).
Notation open_tree := (open_tree sz oid_of). Notation deep := (deep sz oid_of). Notation standing := (standing sz oid_of id_of). Notation nocoll := (nocoll oid_of).
Notation write_loop := (write_loop nhash name_ok oid_of id_of obj_ok).

Section Loop.
Variables (ents : list entry) (cache : option tcache).
Hypothesis Hplain : forall e, In e ents -> plain (e_path e).
Hypothesis Hlen : Z.of_nat (length ents) < 268435455.
Definition insertable (st : odb) (e : entry) : Prop :=
  Forall (fun c => name_ok c = true) (split 47 (e_path e)) /\ TreeModel.valid_filemode (e_mode e) = true /\ forallb (fun b => b =? 0) (id_of (e_data e)) = false /\ (e_mode e <> 57344 -> obj_ok st (id_of (e_data e)) (otype_from_mode (e_mode e)) = true).
Definition cached_real (st : odb) : Prop := forall d node, d <> [] -> tidy d -> cache_get cache d = Some node -> 0 <= c_count node -> exists b, In b st /\ oid_of b = c_oid node.
Lemma insertable_mono st x e : insertable st e -> insertable (st ++ x) e.
Proof. intros (A & B & C & D). do 3 (split; auto). Qed.
Lemma widest_le e : In e ents -> (length (e_path e) <= widest ents)%nat.
Proof. unfold widest. clear. induction ents as [|x l IH]; intros H; [destruct H|]. cbn [fold_right]. destruct H as [->|H]; [lia|]. specialize (IH H). lia. Qed.
Lemma append_total st bld M c n oid m : rep nhash bld (lift M) c -> Z.of_nat c < 268435455 -> all_fine sz M -> cstr n -> Z.of_nat (length n) <= 65535 -> length oid = sz -> check_entry name_ok (obj_ok st) n oid m = 0 ->
  exists bld', append_entry nhash name_ok (obj_ok st) bld n oid m true = Ok (0, bld') /\ exists M', rep nhash bld' (lift M') (c + 1) /\ all_fine sz M'.
Proof.
  intros R Hc Fi Cn Ln Lo E. unfold append_entry. rewrite E. change (0 <? 0) with false. cbv iota. destruct (rep_put nhash bld _ c n (mkte m n oid) R) as (t & Et & Rt); [change (2 ^ 30) with 1073741824; lia|].
  rewrite Et. cbn [bindr]. exists t. split; auto. exists (mset M n (Some (m, oid))). split; [eapply rep_ext; [|exact Rt]; intros k; rewrite lift_mset; reflexivity|]. apply mset_fine; auto. intros m' o' Q. injection Q as <- <-.
  apply (ok_insert_fine nhash name_ok (obj_ok st) Hslash); auto. unfold ok_insert. now rewrite E.
Qed.
Lemma pre_len d : (length d <= length (pre d))%nat. Proof. destruct d; cbn; [lia|]. rewrite app_length. cbn. lia. Qed.
Lemma next_dir_le d : forall l i, (i <= next_dir d l i)%nat.
Proof. induction l as [|e l IH]; intros i; cbn [next_dir]; [lia|]. destruct (outside d (e_path e)); [lia|]. specialize (IH (S i)). lia. Qed.

Lemma loop_total : forall f d i M bld c st, tidy d -> (length d <= widest ents)%nat -> rep nhash bld (lift M) c -> all_fine sz M -> (c <= i)%nat -> (i <= length ents)%nat ->
  cached_real st -> (forall e, In e ents -> insertable st e) -> ((length ents - i) * (widest ents + 2) + (widest ents - length d) < f)%nat ->
  exists oid j st', write_loop ents cache f d i bld st = Ok (Some (oid, j), st') /\ (i <= j <= length ents)%nat /\ (forall e, nth_error ents i = Some e -> indir d (e_path e) -> (i < j)%nat) /\ exists b, In b st' /\ oid_of b = oid.
Proof.
  induction f as [|f IH]; intros d i M bld c st Td Ld R Fi Hc Li Cr Ins Hf; [lia|]. cbn [WtreeModel.write_loop].
  assert (Fin : (forall e, nth_error ents i = Some e -> ~ indir d (e_path e)) -> exists oid j st', (do b <- builder_write bld ;; Ok (Some (oid_of b, i), st ++ [b])) = Ok (Some (oid, j), st') /\ (i <= j <= length ents)%nat /\ (forall e, nth_error ents i = Some e -> indir d (e_path e) -> (i < j)%nat) /\ exists b, In b st' /\ oid_of b = oid).
  { intros Out. destruct (builder_write_spec nhash bld M c R (all_fine_good sz _ Fi)) as (_ & W & _). destruct (W ltac:(lia)) as (b & Eb). rewrite Eb. cbn [bindr]. exists (oid_of b), i, (st ++ [b]). split; auto. split; [lia|]. split; [intros e He Hin; destruct (Out e He Hin)|]. exists b. split; auto. apply in_or_app. right. now left. }
  destruct (nth_error ents i) as [e|] eqn:Ei; [|apply Fin; discriminate]. assert (Lt : (i < length ents)%nat) by (apply nth_error_Some; congruence). pose proof (nth_error_In _ _ Ei) as He.
  destruct (outside d (e_path e)) eqn:Eo.
  { apply Fin; auto. intros x Hx Hin. injection Hx as <-. apply outside_spec in Hin. congruence. }
  clear Fin. apply outside_spec in Eo. destruct Eo as (r & Er). pose proof (Hplain e He) as Pl. pose proof (widest_le e He) as Wd. destruct (Ins e He) as (Nok & Vm & Zi & Ob). rewrite Er in *. rewrite below_spec by exact Pl.
  pose proof (rest_split _ _ Pl) as Rs. pose proof (rest_ne _ _ Pl) as Nr. assert (Nr2 : Forall (fun c => name_ok c = true) (split 47 r)). { pose proof (parts_pre d r Nr) as Q. rewrite plain_parts in Q by exact Pl. rewrite Q in Nok. now apply Forall_app in Nok. }
  destruct Pl as (Pc & Pn & Plen). rewrite app_length in Plen, Wd. unfold cstr in Pc. apply Forall_app in Pc. destruct Pc as [_ Pc]. pose proof (pre_len d) as Pd.
  pose proof (before_slash_spec r) as Bs. destruct (before_slash r) as [comp|].
  - destruct Bs as (Sn & t & ->). rewrite subdir_spec. rewrite split_app in Rs, Nr2 by auto. inversion Rs as [|? ? Nn _]; subst. inversion Nr2 as [|? ? Nk _]; subst. rewrite last_split by auto. rewrite app_length in Wd, Plen. cbn [length] in Wd, Plen. apply Forall_app in Pc. destruct Pc as [Pc _].
    assert (Hind : indir (pre d ++ comp) (e_path e)). { exists t. rewrite pre_sub by auto. now rewrite Er, <- !app_assoc. }
    assert (Lc : (1 <= length comp)%nat) by (destruct comp; [congruence|cbn; lia]).
    set (W := match cache_get cache (pre d ++ comp) with Some _ => _ | None => _ end).
    assert (Sub : exists oid1 j1 x, W = Ok (Some (oid1, j1), st ++ x) /\ (i < j1 <= length ents)%nat /\ exists b, In b (st ++ x) /\ oid_of b = oid1).
    { assert (Rec : exists oid1 j1 x, write_loop ents cache f (pre d ++ comp) i hinit st = Ok (Some (oid1, j1), st ++ x) /\ (i < j1 <= length ents)%nat /\ exists b, In b (st ++ x) /\ oid_of b = oid1).
      { destruct (IH (pre d ++ comp) i mempty hinit 0%nat st) as (oid1 & j1 & st1 & E & Hj & Adv & B); auto; [now apply tidy_sub|rewrite app_length; lia|apply rep_init|intros ? ? ? Q; discriminate|lia|rewrite app_length; lia|].
        destruct (loop_store _ _ _ _ _ _ _ _ _ _ _ _ _ _ E) as (x & ->). exists oid1, j1, x. split; auto. split; auto. split; [eapply Adv; eauto|lia]. }
      unfold W. destruct (cache_get cache (pre d ++ comp)) as [nd|] eqn:Ec; [|exact Rec]. destruct (0 <=? c_count nd) eqn:Ecc; [|exact Rec]. clear Rec.
      exists (c_oid nd), (next_dir (pre d ++ comp) (skipn i ents) i), []. rewrite app_nil_r. split; auto. split.
      - destruct (skipn i ents) as [|x l] eqn:Es.
        { assert (length (skipn i ents) = 0%nat) by now rewrite Es. rewrite skipn_length in H. lia. }
        assert (x = e). { assert (Q : nth_error (skipn i ents) 0 = Some x) by now rewrite Es. clear - Q Ei. revert i Q Ei. induction ents as [|y l' IHl]; intros [|i] Q Ei; cbn in *; try congruence. eauto. } subst x.
        cbn [next_dir]. rewrite (proj2 (outside_spec _ _) Hind). pose proof (next_dir_le (pre d ++ comp) l (S i)). split; [lia|].
        assert (Up : forall l i, (next_dir (pre d ++ comp) l i <= i + length l)%nat). { clear. induction l as [|y l IHl]; intros i; cbn [next_dir length]; [lia|]. destruct (outside _ _); [lia|]. specialize (IHl (S i)). lia. }
        specialize (Up l (S i)). assert (Q : length (skipn i ents) = S (length l)) by now rewrite Es. rewrite skipn_length in Q. lia.
      - apply (Cr (pre d ++ comp) nd); auto; [now apply sub_ne|now apply tidy_sub|lia]. }
    clearbody W. destruct Sub as (oid1 & j1 & x & -> & Hj & b & Hb & <-). cbn [bindr].
    destruct (append_total (st ++ x) bld M c comp (oid_of b) 16384) as (bld' & Ea & M' & R' & F'); auto; [lia|lia| |].
    { unfold check_entry, valid_entry_name. change (TreeModel.valid_filemode 16384) with true. rewrite Nk, Hzero. assert (Q : leqb comp [] = false) by (destruct (leqb comp []) eqn:Z0; auto; apply leqb_spec in Z0; congruence). rewrite Q. cbn [negb andb]. change (otype_from_mode 16384) with 2. rewrite Htree by auto. reflexivity. }
    rewrite Ea. cbn [bindr]. change (0 <? 0) with false. cbv iota.
    destruct (IH d j1 M' bld' (c + 1)%nat (st ++ x)) as (oid & j & st' & E & Hj2 & _ & B); auto; [lia|lia| | | |].
    + intros d0 nd A1 A2 A3 A4. destruct (Cr d0 nd A1 A2 A3 A4) as (b0 & Hb0 & E0). exists b0. split; auto. apply in_or_app. auto.
    + intros e0 H0. apply insertable_mono. auto.
    + assert (Q : ((length ents - j1) * (widest ents + 2) + (widest ents + 2) <= (length ents - i) * (widest ents + 2))%nat) by nia. lia.
    + exists oid, j, st'. split; auto. split; [lia|]. split; auto. intros. lia.
  - rewrite split_nosep in Nr2 by auto. inversion Nr2 as [|? ? Nk _]; subst.
    destruct (append_total st bld M c r (id_of (e_data e)) (e_mode e)) as (bld' & Ea & M' & R' & F'); auto; [lia|lia| |].
    { unfold check_entry, valid_entry_name. rewrite Vm, Nk, Zi. assert (Q : leqb r [] = false) by (destruct (leqb r []) eqn:Z0; auto; apply leqb_spec in Z0; congruence). rewrite Q. cbn [negb andb]. destruct (Z.eqb_spec (e_mode e) 57344) as [|N]; [reflexivity|]. rewrite (Ob N). reflexivity. }
    rewrite Ea. cbn [bindr]. change (0 <? 0) with false. cbv iota.
    destruct (IH d (S i) M' bld' (c + 1)%nat st) as (oid & j & st' & E & Hj2 & _ & B); auto; [lia| |].
    + assert (Q : ((length ents - S i) * (widest ents + 2) + (widest ents + 2) <= (length ents - i) * (widest ents + 2))%nat) by nia. lia.
    + exists oid, j, st'. split; auto. split; [lia|]. split; auto. intros. lia.
Qed.
End Loop.

(** Reading the new cache ends: no path is longer than the longest entry's. *)
Lemma read_total st : forall f name oid es n, deep st oid es -> (forall p m o, holds (open_tree st) es p m o -> (length p <= n)%nat) -> (n < f)%nat -> exists t, read_cache sz oid_of f st name oid es = Ok t.
Proof.
  induction f as [|f IH]; intros name oid es n D Hp Hn; [lia|]. cbn [read_cache].
  match goal with |- context [bindr (?G es) _] => set (go := G) end.
  assert (Go : forall l, incl l es -> exists p, go l = Ok p).
  { destruct (deep_inv _ _ _ _ _ D) as (b & _ & _ & _ & _ & N & Fi & Sub). induction l as [|e l IHl]; intros Hi; [exists (0, []); reflexivity|].
    assert (Hi' : incl l es) by (intros z Hz; apply Hi; now right). destruct (IHl Hi') as (q & Eq). pose proof (Hi e (or_introl eq_refl)) as He. destruct e as [m n0 o]. cbn [go te_attr te_name te_oid]. fold go. destruct (normalize_filemode m =? 16384) eqn:Em.
    - assert (Hd : isdir m). { unfold normalize_filemode in Em. unfold isdir. destruct (Z.eqb_spec (Z.land m 61440) 16384); auto. exfalso. repeat match type of Em with context [if ?b then _ else _] => destruct b end; discriminate. }
      destruct (Sub _ _ _ He Hd) as (_ & sub & Ds & p0 & m0 & o0 & Hh). rewrite (deep_open _ _ _ _ _ Ds). destruct (fine_in _ oid_of _ _ _ _ Fi He) as [Nn Sn].
      assert (Lsub : forall p m' o', holds (open_tree st) sub p m' o' -> (length p + 1 < n)%nat \/ (length p + 2 <= n)%nat).
      { intros p m' o' H'. right. pose proof (Hp _ _ _ (proj2 (holds_sub _ _ _ _ _ _ _ _ _ p m' o' D He Hd (deep_open _ _ _ _ _ Ds)) H')) as Q. rewrite app_length in Q. cbn [length] in Q. destruct n0; [congruence|]. cbn [length] in Q. lia. }
      destruct (IH n0 o sub (n - 2)%nat Ds) as (k & Ek); [intros p m' o' H'; destruct (Lsub p m' o' H'); lia|destruct (Lsub _ _ _ Hh); lia|]. rewrite Ek. cbn [bindr]. rewrite Eq. cbn [bindr]. eauto.
    - rewrite Eq. cbn [bindr]. eauto. }
  destruct (Go es (incl_refl _)) as (p & Ep). rewrite Ep. cbn [bindr]. eauto.
Qed.

Context (path_ok : list Z -> bool) (Hpath : forall p, path_ok p = true -> plain p).
Notation its ix := (items (i_ents ix)).
Notation write_index := (write_index nhash name_ok sz oid_of id_of obj_ok).
Notation winv := (winv sz oid_of id_of path_ok).
Lemma create_valid m : TreeModel.valid_filemode (create_mode m) = true.
Proof. unfold create_mode. repeat match goal with |- context [if ?b then _ else _] => destruct b end; reflexivity. Qed.
Lemma write_total w : winv w -> collision_free (its (w_ix w)) -> Z.of_nat (length (its (w_ix w))) < 268435455 -> (forall e, In e (its (w_ix w)) -> e_stage e = 0) ->
  (forall e, In e (its (w_ix w)) -> Forall (fun c => name_ok c = true) (split 47 (e_path e)) /\ forallb (fun b => b =? 0) (id_of (e_data e)) = false /\ (e_mode e <> 57344 -> obj_ok (w_odb w) (id_of (e_data e)) (otype_from_mode (e_mode e)) = true)) ->
  (forall r st, write_root nhash name_ok oid_of id_of obj_ok (its (w_ix w)) (w_cache w) (w_odb w) = Ok (r, st) -> nocoll st) ->
  exists oid w', write_index false w = Ok (0, oid, w').
Proof.
  intros I Cf Hl Z0 Ins Nc. pose proof I as [W M C]. unfold WtreeModel.write_index. assert (Eu : existsb (fun e => 0 <? e_stage e) (its (w_ix w)) = false).
  { destruct (existsb _ _) eqn:Q; auto. apply existsb_exists in Q. destruct Q as (e & He & Q). rewrite (Z0 e He) in Q. discriminate. } rewrite Eu. destruct (stage0_all _ Eu (fun e He => proj2 (proj2 W e He))) as [S0 _].
  assert (Re : exists oid w', rebuild nhash name_ok sz oid_of id_of obj_ok false w = Ok (0, oid, w')).
  { unfold WtreeModel.rebuild. cbn [bindr items].
    assert (Rt : exists oid j st', write_root nhash name_ok oid_of id_of obj_ok (its (w_ix w)) (w_cache w) (w_odb w) = Ok (Some (oid, j), st')).
    { unfold write_root. assert (E : cache_get (w_cache w) [] = None). { unfold cache_get. destruct (w_cache w) as [t|] eqn:Ec; auto. cbn [split cache_at]. destruct (C t eq_refl) as [Q _]. now rewrite Q. } rewrite E.
      destruct (loop_total (its (w_ix w)) (w_cache w) ltac:(intros e He; apply Hpath; now apply W) Hl (write_fuel (its (w_ix w))) [] 0%nat mempty hinit 0%nat (w_odb w)) as (oid & j & st' & Q & _); eauto.
      - constructor.
      - cbn. lia.
      - apply rep_init.
      - intros ? ? ? Q; discriminate.
      - lia.
      - intros d node Nd Td Hg Hp. unfold cache_get in Hg. destruct (w_cache w) as [t|] eqn:Ec; [|discriminate]. destruct (C t eq_refl) as [_ R]. assert (Pd : parts d = split 47 d) by (destruct d; [congruence|reflexivity]).
        specialize (R (split 47 d) node). rewrite <- Pd in R. destruct (R (tidy_clean _ Td) ltac:(now rewrite Pd) Hp) as (es & D & _). destruct (deep_inv _ _ _ _ _ D) as (b & A & _). destruct (raw_id _ _ _ _ A). eauto.
      - intros e He. destruct (Ins e He) as (A & B & D). destruct (M e He) as (m & Em). split; auto. split; [rewrite Em; apply create_valid|auto].
      - unfold write_fuel. cbn [length]. nia. }
    destruct Rt as (oid & j & st & Er). specialize (Nc _ _ Er). rewrite Er. cbn [bindr].
    assert (Cap : 4 + 4 * (Z.of_nat (length (its (w_ix w))) + 1) <= 2 ^ 30) by (change (2 ^ 30) with 1073741824; lia).
    assert (Sd : standing (its (w_ix w)) st [] oid) by (eapply (root_standing nhash name_ok sz oid_of id_of obj_ok Hslash Hid Hoid path_ok Hpath w); eauto).
    destruct Sd as (es & D & Hh). rewrite (deep_open _ _ _ _ _ D).
    destruct (read_total st (S (S (widest (its (w_ix w))))) [] oid es (widest (its (w_ix w))) D) as (t & Et); [|lia|rewrite Et; eauto].
    intros p m o Hp. apply Hh in Hp. destruct Hp as (e & He & Ep & _). cbn [pre app] in Ep. rewrite <- Ep. now apply widest_le. }
  destruct (w_cache w) as [t|]; [|exact Re]. destruct (0 <=? c_count t); [eauto|exact Re].
Qed.
End Total.
