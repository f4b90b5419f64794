(** The actions chosen for a whole list of differences, and the files after carrying them out. *)
From Coq Require Import ZArith List Bool Lia Sorted.
From Verif Require Import Base CStr Str CheckoutModel CheckoutSpec CheckoutProofs.
Import ListNotations.
Local Open Scope Z_scope.

(** * Paths in a well-formed directory *)
Lemma split_first (a b r s : list Z) : ~ In slash a -> a ++ slash :: r = b ++ slash :: s ->
  (b = a /\ s = r) \/ exists b', b = a ++ slash :: b' /\ r = b' ++ slash :: s.
Proof.
  revert b. induction a as [|x a IH]; intros b N E.
  - destruct b as [|y b]; cbn [app] in E; [left; injection E as E; split; congruence|].
    injection E as <- E. right. exists b. split; [reflexivity|exact E].
  - destruct b as [|y b]; cbn [app] in E; [injection E as E _; exfalso; apply N; left; exact E|].
    injection E as <- E. destruct (IH b) with (2 := E) as [[-> ->]|(b' & -> & ->)].
    + intros H. apply N. right. exact H.
    + left. split; reflexivity.
    + right. exists b'. split; reflexivity.
Qed.
Lemma nodup_in (kids : list (list Z * node)) name (n m : node) : NoDup (map fst kids) -> In (name, n) kids -> In (name, m) kids -> n = m.
Proof.
  induction kids as [|[a x] r IH]; intros D H H'; [destruct H|]. inversion D as [|? ? D1 D2]; subst. cbn [fst] in D1.
  destruct H as [H|H], H' as [H'|H'].
  - congruence.
  - exfalso. apply D1. injection H as <- <-. apply (in_map fst) in H'. exact H'.
  - exfalso. apply D1. injection H' as <- <-. apply (in_map fst) in H. exact H.
  - apply IH; assumption.
Qed.
Lemma lives_below_inv kids q n : wf kids -> lives kids q n -> forall p r, q = p ++ slash :: r -> 
  exists i g sub, lives kids p (NDir i g sub) /\ lives sub r n.
Proof.
  intros W L. induction L as [kids name n H|kids name i g sub q n H L IH]; intros p r E; inversion W as [? A B C D F]; subst kids0.
  - exfalso. apply (proj2 (A _ _ H)). rewrite E. apply in_or_app. right. left. reflexivity.
  - destruct (split_first name p q r (proj2 (A _ _ H)) E) as [[-> ->]|(b' & -> & ->)].
    + exists i, g, sub. split; [constructor; exact H|exact L].
    + destruct (IH (C _ _ _ _ H) b' r eq_refl) as (i' & g' & sub' & L1 & L2). exists i', g', sub'. split; [|exact L2].
      eapply lives_below; eassumption.
Qed.
Lemma lives_fun kids q n : lives kids q n -> wf kids -> forall m, lives kids q m -> n = m.
Proof.
  intros L. induction L as [kids name n H|kids name i g sub q n H L IH]; intros W m M; inversion W as [? A B C D F]; subst kids0.
  - inversion M as [? ? ? H'|? name' i' g' sub' q' ? H' L']; subst; [eapply nodup_in; eassumption|].
    exfalso. apply (proj2 (A _ _ H)). apply in_or_app. right. left. reflexivity.
  - inversion M as [? ? ? H'|? name' i' g' sub' q' ? H' L' E]; subst.
    + exfalso. apply (proj2 (A _ _ H')). apply in_or_app. right. left. reflexivity.
    + destruct (split_first name name' q q' (proj2 (A _ _ H))) as [[-> ->]|(b' & -> & ->)]; [congruence| |].
      * pose proof (nodup_in _ _ _ _ D H H') as Q. injection Q as <- <- <-. apply IH; [eapply C; exact H|exact L'].
      * exfalso. apply (proj2 (A _ _ H')). apply in_or_app. right. left. reflexivity.
Qed.
Lemma lives_last kids q n : lives kids q n -> wf kids -> q <> [] /\ last q 0 <> slash.
Proof.
  intros L. induction L as [kids name n H|kids name i g sub q n H L IH]; intros W; inversion W as [? A B C D F]; subst kids0.
  - destruct (A _ _ H). split; [assumption|apply last_noslash; assumption].
  - destruct (IH (C _ _ _ _ H)) as [N1 N2]. split; [destruct name; discriminate|].
    change (slash :: q) with ([slash] ++ q). rewrite app_assoc, last_app_ne by exact N1. exact N2.
Qed.
Lemma items_file kids q f : wf kids -> In (q, NFile f) (items (workdir kids)) <-> lives kids q (NFile f).
Proof.
  intros W. rewrite workdir_lives. unfold sfx. cbn [is_dir]. split.
  - intros (q' & L & ->). rewrite app_nil_r. exact L.
  - intros L. exists q. rewrite app_nil_r. split; [exact L|reflexivity].
Qed.
Lemma items_dir kids q n : wf kids -> In (q ++ [slash], n) (items (workdir kids)) <-> lives kids q n /\ is_dir n = true.
Proof.
  intros W. rewrite workdir_lives. unfold sfx. split.
  - intros (q' & L & E). destruct (is_dir n).
    + apply app_inj_tail in E. destruct E as [-> _]. split; [exact L|reflexivity].
    + exfalso. rewrite app_nil_r in E. subst q'. apply lives_last in L; [|exact W]. apply (proj2 L). apply last_last.
  - intros [L ->]. exists q. split; [exact L|reflexivity].
Qed.
Lemma files_lives kids q f : wf kids -> In (q, f) (files (workdir kids)) <-> lives kids q (NFile f).
Proof. intros W. rewrite files_items. apply items_file. exact W. Qed.

(** * Enough steps *)
Lemma wd_only_size st ix spec w : (isize (fst (wd_only st ix spec w)) < nsize (snd w))%nat.
Proof.
  pose proof (advance_size w) as A. destruct w as [p n]. unfold wd_only. destruct (negb (spec p)); [exact A|].
  pose proof (nsize_pos n). cbn [snd] in *.
  destruct n as [f|i g k]; [destruct (existsb (leqb p) (ix_paths ix))|destruct (existsb (prefixb p) (ix_paths ix))];
    cbn [fst isize] in *; try lia; exact A.
Qed.
Lemma checkout_action_total fuel : forall st ix sm cf spec d it, (isize it < fuel)%nat ->
  exists a it' rm, checkout_action fuel st ix sm cf spec d it = Some (a, it', rm).
Proof.
  induction fuel as [|fuel IH]; intros st ix sm cf spec d it L; [lia|]. cbn [checkout_action].
  destruct it as [|w rest]; [eauto|]. cbn [isize] in L. pose proof (advance_size w) as A.
  assert (O1 : exists a it' rm, (let '(front, rm) := wd_only st ix spec w in
        match checkout_action fuel st ix sm cf spec d (front ++ rest) with
        | Some (a, it', rm') => Some (a, it', rm ++ rm')
        | None => None
        end) = Some (a, it', rm)).
  { pose proof (wd_only_size st ix spec w) as B. destruct (wd_only st ix spec w) as [front rm]. cbn [fst] in B.
    destruct (IH st ix sm cf spec d (front ++ rest)) as (a & it' & rm' & ->); [rewrite isize_app; lia|]. eauto. }
  destruct (lex (fst w) (d_path d)).
  - eauto.
  - destruct (prefixb (fst w) (d_path d)); [|exact O1]. destruct (is_dir (snd w)).
    + apply IH. rewrite isize_app. lia.
    + destruct (_ =? slash); [eauto|exact O1].
  - destruct (prefixb (d_path d) (fst w)); [|eauto]. destruct (negb _); [eauto|].
    destruct (d_status d); eauto. destruct (d_omode d =? MODE_TREE); eauto.
    destruct ((d_nmode d =? MODE_TREE) || (d_nmode d =? MODE_COMMIT) || (d_omode d =? MODE_COMMIT)); eauto.
Qed.
Lemma actions_total st ix sm cf spec ds : forall it, exists l it' rm, actions st ix sm cf spec ds it = Some (l, it', rm).
Proof.
  induction ds as [|d r IH]; intros it; cbn [actions]; [eauto|].
  destruct (checkout_action_total (S (isize it)) st ix (sm (d_path d)) (cf (d_path d)) spec d it) as (a & it' & rm & ->); [lia|].
  destruct (IH it') as (l & it'' & rm' & ->). eauto.
Qed.
Lemma remaining_total fuel : forall st ix spec it, (isize it < fuel)%nat -> exists rm, remaining fuel st ix spec it = Some rm.
Proof.
  induction fuel as [|fuel IH]; intros st ix spec it L; [lia|]. cbn [remaining].
  destruct it as [|w rest]; [eauto|]. cbn [isize] in L.
  pose proof (wd_only_size st ix spec w) as B. destruct (wd_only st ix spec w) as [front rm]. cbn [fst] in B.
  destruct (IH st ix spec (front ++ rest)) as (rm' & ->); [rewrite isize_app; lia|]. eauto.
Qed.
Lemma wd_only_safe st ix spec w : safe st -> snd (wd_only st ix spec w) = [].
Proof.
  intros (F & U & G). destruct w as [p n]. unfold wd_only. destruct (negb (spec p)); [reflexivity|].
  rewrite F, U, G. destruct n as [f|i g k]; cbn [n_ignored].
  - destruct (existsb _ _); [reflexivity|]. destruct (f_ignored f); reflexivity.
  - destruct (existsb _ _); [reflexivity|]. destruct i; reflexivity.
Qed.
Lemma remaining_safe st ix spec : safe st -> forall fuel it rm, remaining fuel st ix spec it = Some rm -> rm = [].
Proof.
  intros S1. induction fuel as [|fuel IH]; intros it rm H; [discriminate|]. cbn [remaining] in H.
  destruct it as [|w rest]; [congruence|]. pose proof (wd_only_safe st ix spec w S1) as E.
  destruct (wd_only st ix spec w) as [front rm0]. cbn [snd] in E. subst rm0.
  destruct (remaining fuel st ix spec (front ++ rest)) as [rm'|] eqn:R; [|discriminate]. injection H as <-. apply IH in R. subst. reflexivity.
Qed.

(** * The actions for all differences *)
Section Actions.
Variables (kids : list (list Z * node)) (st : strategy) (ix : index) (sm cf spec : list Z -> bool).
Hypothesis W : wf kids.

Lemma inv_start p : Inv (workdir kids) p (workdir kids).
Proof.
  constructor.
  - apply kids_rel. exact W.
  - apply Forall_map, Forall_forall. intros k Hk. apply child_ok with kids; assumption.
  - apply incl_refl.
  - intros z Hz _. exact Hz.
  - intros x y Hx [v Ev] N. exfalso. apply in_map_iff in Hx. destruct Hx as ([name n] & <- & Hk).
    unfold child in Ev, N. cbn [fst snd app] in Ev, N. inversion W as [? A ? ? ? ?]; subst. destruct (A _ _ Hk) as [A1 A2].
    rewrite <- app_assoc in Ev. cbn [app] in Ev. destruct (is_dir n).
    + destruct v as [|c v].
      * apply N. exact Ev.
      * apply A2. assert (X : In slash (removelast (name ++ [slash]))).
        { rewrite Ev. replace (y ++ slash :: c :: v) with ((y ++ [slash]) ++ c :: v) by (rewrite <- app_assoc; reflexivity).
          rewrite removelast_app by discriminate. apply in_or_app. left. apply in_or_app. right. left. reflexivity. }
        rewrite removelast_last in X. exact X.
    + rewrite app_nil_r in Ev. apply A2. rewrite Ev. apply in_or_app. right. left. reflexivity.
Qed.

(** The action for a difference, from what the working directory has at its path. *)
Definition chosen (d : delta) (a : action) : Prop :=
  (exists f, lives kids (d_path d) (NFile f) /\ a = action_with_wd st ix (sm (d_path d)) (cf (d_path d)) d (d_path d, NFile f)) \/
  (exists i g sub, lives kids (d_path d) (NDir i g sub) /\
     a = dir_action st ix (sm (d_path d)) (cf (d_path d)) d (d_path d ++ [slash], NDir i g sub)) \/
  ((forall n, ~ lives kids (d_path d) n) /\ a = action_no_wd st d).

Lemma found_chosen d a : found (workdir kids) st ix (sm (d_path d)) (cf (d_path d)) d a -> chosen d a.
Proof.
  intros [(f & Hf & E)|[(n & Hn & Dn & E)|(NF & ND & E)]].
  - left. exists f. split; [apply items_file; assumption|exact E].
  - right. left. apply items_dir in Hn; [|exact W]. destruct n as [f|i g sub]; [discriminate|]. exists i, g, sub. split; [apply Hn|exact E].
  - right. right. split; [|exact E]. intros [f|i g sub] L.
    + apply NF. exists f. apply items_file; assumption.
    + apply ND. exists (NDir i g sub). apply items_dir; [exact W|]. split; [exact L|reflexivity].
Qed.

Lemma actions_chosen pre ds : well_ordered (pre ++ ds) -> no_blockers (pre ++ ds) kids -> no_shadows ds kids ->
  (forall d i g sub, In d ds -> d_status d = Typechange -> lives kids (d_path d) (NDir i g sub) -> d_omode d = MODE_TREE) ->
  forall R, (forall z d, In z (items R) -> In d pre -> d_path d <> fst z) ->
  (forall d, hd_error ds = Some d -> Inv (workdir kids) (d_path d) R) -> forall l R' rm,
  actions st ix sm cf spec ds R = Some (l, R', rm) ->
  map fst l = ds /\ (forall d a, In (d, a) l -> chosen d a) /\ (safe st -> rm = []).
Proof.
  revert pre. induction ds as [|d r IH]; intros pre [O1 O2] B S1 T R Dn V l R' rm H; cbn [actions] in H.
  { injection H as <- <- <-. split; [reflexivity|]. split; [intros ? ? []|reflexivity]. }
  destruct (checkout_action (S (isize R)) st ix (sm (d_path d)) (cf (d_path d)) spec d R) as [[[a R1] rm1]|] eqn:E; [|discriminate].
  destruct (actions st ix sm cf spec r R1) as [[[l2 R2] rm2]|] eqn:E2; [|discriminate]. injection H as <- <- <-.
  assert (Later : forall d', In d' r -> lex (d_path d) (d_path d') = Lt).
  { clear -O1. induction pre as [|d0 pre IH]; cbn [app] in O1; inversion O1 as [|? ? G1 G2]; subst; [rewrite Forall_forall in G2; exact G2|apply IH; exact G1]. }
  destruct (walk (workdir kids) st ix (sm (d_path d)) (cf (d_path d)) spec d (fun q => exists d0, In d0 pre /\ d_path d0 = q))
    with (fuel := S (isize R)) (R := R) (a := a) (R' := R1) (rm := rm1) as (F & M & G & C).
  - apply O2. apply in_or_app. right. left. reflexivity.
  - intros q f Hq P. apply items_file in Hq; [|exact W].
    destruct (B d q f) as (_ & d0 & Hd0 & E0); [apply in_or_app; right; left; reflexivity|exact Hq|exact P|].
    exists d0. split; [|exact E0]. apply in_app_or in Hd0. destruct Hd0 as [Hd0|Hd0]; [exact Hd0|exfalso].
    assert (Lt0 : lex q (d_path d) = Lt). { destruct P as [v ->]. rewrite <- app_assoc. apply lex_ext. discriminate. }
    destruct Hd0 as [<-|Hd0]; [rewrite E0 in Lt0; apply (lex_irrefl _ Lt0)|]. specialize (Later d0 Hd0). rewrite E0 in Later. apply (lex_asym _ _ Lt0 Later).
  - intros n Hn z c Hz Hc Q. apply items_dir in Hn; [|exact W]. destruct n as [f|i g sub]; [destruct Hn; discriminate|].
    destruct z as [y x]. apply workdir_lives in Hz. destruct Hz as (q & L & ->). cbn [fst] in Q.
    refine (S1 d i g sub (or_introl eq_refl) (proj1 Hn) q x c L Hc _).
    unfold sfx in Q. destruct (is_dir x); [|rewrite app_nil_r in Q; exact Q].
    destruct Q as [v Ev]. destruct (exists_last (l := [c] ++ v)) as (v0 & e & Ee); [discriminate|].
    rewrite <- app_assoc, Ee in Ev. rewrite app_assoc in Ev. apply app_inj_tail in Ev. destruct Ev as [Ev <-].
    destruct v0 as [|c0 v0]; [cbn in Ee; injection Ee as -> _; unfold slash in Hc; lia|].
    cbn in Ee. injection Ee as <- Ee. exists v0. rewrite Ev. rewrite <- app_assoc. reflexivity.
  - intros f n Hf Hn. apply items_file in Hf; [|exact W]. apply items_dir in Hn; [|exact W]. destruct Hn as [Hn Dn'].
    pose proof (lives_fun _ _ _ Hf W _ Hn) as Q. subst n. discriminate.
  - apply V. reflexivity.
  - intros z Hz (d0 & Hd0 & E0). apply (Dn z d0 Hz Hd0 E0).
  - exact E.
  - destruct (IH (pre ++ [d])) with (R := R1) (l := l2) (R' := R2) (rm := rm2) as (I1 & I2 & I3).
    + rewrite <- app_assoc. split; assumption.
    + rewrite <- app_assoc. exact B.
    + intros d' i g sub Hd'. apply S1. right. exact Hd'.
    + intros d' i g sub Hd'. apply T. right. exact Hd'.
    + intros z d' Hz Hd'. destruct (G z Hz) as [G1 G2]. apply in_app_or in Hd'. destruct Hd' as [Hd'|[<-|[]]]; [apply Dn; assumption|].
      intros Q. rewrite <- Q in G2. apply (lex_irrefl _ G2).
    + intros d' Hd'. apply C.
      * intros [n Hn] Ty. apply items_dir in Hn; [|exact W]. destruct n as [f|i g sub]; [destruct Hn; discriminate|].
        apply (T d i g sub); [left; reflexivity|exact Ty|apply Hn].
      * apply Later. destruct r as [|d0 r]; [discriminate|]. cbn in Hd'. injection Hd' as <-. left. reflexivity.
    + exact E2.
    + split; [cbn [map fst]; rewrite I1; reflexivity|]. split.
      * intros d' a' [Q|Q]; [injection Q as <- <-; apply found_chosen; exact F|apply I2; exact Q].
      * intros S2. rewrite (M S2), (I3 S2). reflexivity.
Qed.
End Actions.

(** * What the actions do to a file *)
Lemma each_keep sel op l (e : list Z * file) :
  (forall d a, In (d, a) l -> sel d a = true -> forall fs, In e fs -> In e (fst (op d fs))) ->
  forall fs, In e fs -> In e (fst (each sel op l fs)).
Proof.
  induction l as [|[d a] r IH]; intros H fs I1; cbn [each]; [exact I1|].
  destruct (sel d a) eqn:S1.
  - specialize (H d a (or_introl eq_refl) S1 fs I1) as G. destruct (op d fs) as [fs' ok]. cbn [fst] in G.
    destruct ok; [|exact G]. apply IH; [|exact G]. intros d' a' Q. apply H. right. exact Q.
  - apply IH; [|exact I1]. intros d' a' Q. apply H. right. exact Q.
Qed.
Lemma rmdir_keep p q f fs : last p 0 <> slash -> In (q, f) fs -> at_or_below p q = false -> ~ starts_with (q ++ [slash]) p ->
  In (q, f) (rmdir_r p fs).
Proof.
  intros Lp I1 N B. unfold rmdir_r. rewrite strip_id by exact Lp.
  destruct (existsb _ fs); apply filter_In; (split; [exact I1|]); cbn [fst].
  - rewrite N. reflexivity.
  - destruct (prefixb (q ++ [slash]) p) eqn:E; [|reflexivity]. apply prefixb_spec in E. contradiction.
Qed.
Lemma write_keep st p m id q f fs : s_rmexist st = false -> In (q, f) fs -> q <> p -> In (q, f) (fst (write_content st p m id fs)).
Proof.
  intros R I1 N. unfold write_content. destruct (zero_id id); [exact I1|]. unfold mkpath2file. rewrite R.
  destruct (existsb (fun e => prefixb (fst e ++ [slash]) p) fs); [exact I1|].
  destruct (existsb (fun e => prefixb (p ++ [slash]) (fst e)) fs); [exact I1|].
  destruct (find_file p fs).
  - destruct (m =? MODE_LINK); [exact I1|]. right. apply filter_In. split; [exact I1|]. cbn [fst].
    destruct (leqb p q) eqn:E; [apply leqb_spec in E; congruence|reflexivity].
  - right. exact I1.
Qed.
Lemma blob_keep st d q f fs : s_rmexist st = false -> In (q, f) fs -> q <> d_path d -> In (q, f) (fst (checkout_blob st d fs)).
Proof.
  intros R I1 N. unfold checkout_blob. destruct (s_update_only st && _); [exact I1|].
  pose proof (write_keep st (d_path d) (d_nmode d) (d_nid d) q f fs R I1 N) as G. destruct (write_content _ _ _ _ _) as [fs' r]. exact G.
Qed.
Lemma submodule_keep st d e fs : s_rmexist st = false -> In e fs -> In e (fst (checkout_submodule st d fs)).
Proof. intros R I1. unfold checkout_submodule. rewrite R. destruct (s_update_only st); exact I1. Qed.

(** A file survives when no action removes or writes it. *)
Lemma effects_keep st l q f fs : s_rmexist st = false -> In (q, f) fs ->
  (forall d a, In (d, a) l -> last (d_path d) 0 <> slash /\
     (a_rm a = true -> at_or_below (d_path d) q = false /\ ~ starts_with (q ++ [slash]) (d_path d)) /\ (a_up a = true -> q <> d_path d)) ->
  In (q, f) (fst (create_the_new st l (remove_the_old l [] fs))) /\
  In (q, f) (fst (each (fun _ a => a_sub a) (checkout_submodule st) l (fst (create_the_new st l (remove_the_old l [] fs))))).
Proof.
  intros R I1 H.
  assert (G1 : In (q, f) (remove_the_old l [] fs)).
  { unfold remove_the_old. cbn [fold_left]. apply each_keep; [|exact I1]. intros d a Hd Ra fs0 I2. cbn [fst].
    destruct (H d a Hd) as (X1 & X2 & X3). apply rmdir_keep; try apply (X2 Ra); assumption. }
  assert (G2 : In (q, f) (fst (create_the_new st l (remove_the_old l [] fs)))).
  { unfold create_the_new.
    assert (K : forall sel, (forall d a, sel d a = true -> a_up a = true) -> forall fs0, In (q, f) fs0 -> In (q, f) (fst (each sel (checkout_blob st) l fs0))).
    { intros sel Hs fs0 I2. apply each_keep; [|exact I2]. intros d a Hd Sa fs1 I3. apply blob_keep; [exact R|exact I3|].
      apply (H d a Hd). apply (Hs d a Sa). }
    pose proof (K (fun d a => a_up a && negb (d_nmode d =? MODE_LINK)) ltac:(intros d a Q; apply andb_prop in Q; apply Q) _ G1) as K1.
    destruct (each _ _ l (remove_the_old l [] fs)) as [fs1 ok]. cbn [fst] in K1. destruct ok; [|exact K1].
    apply K; [|exact K1]. intros d a Q. apply andb_prop in Q. apply Q. }
  split; [exact G2|]. apply each_keep; [|exact G2]. intros d a _ _ fs0 I2. apply submodule_keep; assumption.
Qed.

(** * The decision tables without force *)
Lemma common_none st d w : action_common st d w NONE = NONE.
Proof. unfold action_common. destruct (s_update_only st); reflexivity. Qed.
Lemma common_conflict st d w : action_common st d w CONFLICT = CONFLICT.
Proof. unfold action_common. destruct (s_update_only st); reflexivity. Qed.

Lemma not_modified st ix sm d q f kids : is_modified st ix sm d (q, NFile f) = false -> f_mode f <> MODE_COMMIT -> f_id f <> None ->
  lives kids q (NFile f) -> index_honest ix kids ->
  (f_id f = Some (d_oid d) \/ f_id f = Some (d_nid d)) /\ (s_filemode st = true -> f_mode f = d_omode d).
Proof.
  intros H NC NI L HI. unfold is_modified in H. cbn [n_mode] in H.
  destruct (Z.eqb_spec (f_mode f) MODE_COMMIT) as [E|_]; [contradiction|].
  assert (BN : forall id, f_id f = Some id -> base_or_new id d = true -> f_id f = Some (d_oid d) \/ f_id f = Some (d_nid d)).
  { intros id E B. unfold base_or_new in B. apply orb_prop in B. destruct B as [B|B]; apply leqb_spec in B; rewrite B; auto. }
  assert (FM : forall a b, filemode_changed a b (s_filemode st) = false -> s_filemode st = true -> a = b).
  { intros a b Q T. unfold filemode_changed in Q. rewrite T in Q. apply negb_false_iff, Z.eqb_eq in Q. exact Q. }
  assert (Slow : (if negb (d_osize d =? 0) && negb (f_size f =? d_osize d) then true
      else if filemode_changed (d_omode d) (f_mode f) (s_filemode st) then true
      else match f_id f with None => false | Some oid => negb (base_or_new oid d) end) = false ->
     (f_id f = Some (d_oid d) \/ f_id f = Some (d_nid d)) /\ (s_filemode st = true -> f_mode f = d_omode d)).
  { intros Q. destruct (_ && _); [discriminate|]. destruct (filemode_changed (d_omode d) (f_mode f) (s_filemode st)) eqn:Fm; [discriminate|].
    destruct (f_id f) as [oid|] eqn:Ei; [|congruence]. apply negb_false_iff in Q. split; [apply (BN oid eq_refl Q)|].
    intros T. symmetry. apply (FM _ _ Fm T). }
  destruct (ix_entry ix q) as [e|] eqn:Ee; [|apply Slow; exact H].
  destruct (negb (i_newer e) && (f_mtime f =? i_mtime e) && (f_size f =? i_size e) && negb (filemode_changed (f_mode f) (i_mode e) (s_filemode st))) eqn:C;
    [|apply Slow; exact H].
  apply andb_prop in C. destruct C as [C C4]. apply andb_prop in C. destruct C as [C C3]. apply andb_prop in C. destruct C as [C1 C2].
  apply negb_true_iff in C1, C4. apply Z.eqb_eq in C2, C3. apply orb_false_elim in H. destruct H as [H1 H2]. apply negb_false_iff in H1.
  split; [apply (BN (i_id e)); [apply (HI q f e); assumption|exact H1]|].
  intros T. rewrite (FM _ _ C4 T). symmetry. apply (FM _ _ H2 T).
Qed.

Lemma with_wd_safe st ix sm cf d q f : safe st -> f_mode f <> MODE_COMMIT -> f_mode f <> MODE_TREE ->
  let a := action_with_wd st ix sm cf d (q, NFile f) in
  a_rm a = true \/ a_up a = true ->
  is_modified st ix sm d (q, NFile f) = false \/ (f_ignored f = true /\ s_keep_ignored st = false).
Proof.
  intros (F & _ & _) NC NT. cbn zeta. unfold action_with_wd. cbn [snd n_mode n_ignored]. rewrite F. unfold action_if.
  destruct (Z.eqb_spec (f_mode f) MODE_COMMIT) as [E|_]; [contradiction|].
  destruct (Z.eqb_spec (f_mode f) MODE_TREE) as [E|_]; [contradiction|]. cbn [negb andb].
  destruct (is_modified st ix sm d (q, NFile f)); [|intros _; left; reflexivity].
  intros H. right. destruct (s_none st); [destruct H; discriminate|].
  destruct (d_status d).
  - rewrite common_none in H. destruct H; discriminate.
  - destruct (f_ignored f); [|rewrite common_conflict in H; destruct H; discriminate].
    destruct (s_keep_ignored st); [rewrite common_conflict in H; destruct H; discriminate|]. split; reflexivity.
  - rewrite common_conflict in H. destruct H; discriminate.
  - rewrite common_conflict in H. destruct H; discriminate.
  - exfalso. destruct (d_omode d =? MODE_TREE), (d_nmode d =? MODE_TREE); cbn [a_rm a_up a_sub a_conf CONFLICT] in H;
      try change (mkact false false false true) with CONFLICT in H; rewrite common_conflict in H; destruct H; discriminate.
Qed.
Lemma dir_safe st ix sm cf d p i g sub : safe st -> (s_keep_ignored st = true \/ i = false) ->
  (d_status d = Typechange -> d_omode d = MODE_TREE /\ d_nmode d <> MODE_TREE /\ d_nmode d <> MODE_LINK /\ is_exec (d_nmode d) = false) ->
  a_rm (dir_action st ix sm cf d (p, NDir i g sub)) = true -> sub = [].
Proof.
  intros (F & _ & _) K T H. unfold dir_action in H. cbn [snd] in H.
  assert (Emp : empty_dir (NDir i g sub) = true -> sub = []). { cbn. destruct sub; [reflexivity|discriminate]. }
  destruct (d_status d) eqn:Es.
  1-4: destruct (empty_dir (NDir i g sub)); [apply Emp; reflexivity|]; exfalso;
    unfold action_wd_dir, action_if in H; cbn [snd n_ignored] in H; rewrite Es in H; try rewrite F in H; destruct (s_none st); try discriminate H.
  - rewrite common_none in H. discriminate.
  - destruct (d_omode d =? MODE_COMMIT); [rewrite common_none in H; discriminate|]. destruct (negb _); [|rewrite common_none in H; discriminate].
    destruct i; [destruct K as [K|K]; [rewrite K in H|discriminate]|]; rewrite common_conflict in H; discriminate.
  - rewrite common_none in H. discriminate.
  - destruct (d_omode d =? MODE_COMMIT); [rewrite common_none in H; discriminate|]. destruct (negb _); [|rewrite common_none in H; discriminate].
    destruct i; [destruct K as [K|K]; [rewrite K in H|discriminate]|]; rewrite common_conflict in H; discriminate.
  - destruct (T eq_refl) as (T1 & T2 & T3 & T4). rewrite T1 in H. cbn [orb] in H. rewrite Z.eqb_refl in H. cbn [orb] in H.
    unfold action_with_wd in H. cbn [snd n_mode] in H. rewrite Es, T1, Z.eqb_refl in H.
    destruct (s_none st); [discriminate|].
    destruct (Z.eqb_spec (d_nmode d) MODE_TREE) as [E|_]; [contradiction|].
    exfalso. unfold action_common in H. cbn [n_mode] in H. rewrite T4 in H.
    change (is_exec MODE_TREE) with false in H. cbn [Bool.eqb] in H.
    destruct (Z.eqb_spec (d_nmode d) MODE_LINK) as [E|_]; [contradiction|].
    destruct (s_update_only st); cbn [a_up a_rm UPDATE_BLOB] in H; destruct (d_nmode d =? MODE_COMMIT); cbn in H; discriminate.
Qed.
