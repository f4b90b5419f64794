(** C48: a checkout in a clean working directory produces the target. *)
From Coq Require Import ZArith List Bool Lia Sorted String.
From Verif Require Import Base CStr Str CheckoutModel CheckoutSpec CheckoutProofs CheckoutMain CheckoutProps.
Import ListNotations.
Local Open Scope Z_scope.

(** * What a tree holds: a mode and an object id for each of its (file) paths *)
Definition snapshot := list Z -> option (Z * list Z).
Definition filemode (m : Z) : Prop := m = MODE_BLOB \/ m = MODE_EXEC \/ m = MODE_LINK.
(** Modes and ids are those of files and symbolic links, and no file is a directory of another one. *)
Definition tree (t : snapshot) : Prop :=
  (forall q m id, t q = Some (m, id) -> filemode m /\ zero_id id = false) /\
  (forall q r, t q <> None -> t (q ++ slash :: r) = None).
Definition has_dir (t : snapshot) (p : list Z) : Prop := exists r, t (p ++ slash :: r) <> None.

(** [ds] is the list of differences between [b] and [t], with all unmodified entries, and with a
    type change reported where a directory becomes a file (old mode TREE) or a file becomes a
    directory (new mode TREE). *)
Definition describes (ds : list delta) (b t : snapshot) : Prop :=
  (forall q, b q <> None \/ t q <> None -> exists d, In d ds /\ d_path d = q) /\
  forall d, In d ds -> let p := d_path d in
  match d_status d with
  | Unmodified => b p = Some (d_omode d, d_oid d) /\ t p = Some (d_omode d, d_oid d)
  | Modified => b p = Some (d_omode d, d_oid d) /\ t p = Some (d_nmode d, d_nid d) /\
                (d_omode d = MODE_LINK <-> d_nmode d = MODE_LINK)
  | Added => b p = None /\ ~ has_dir b p /\ t p = Some (d_nmode d, d_nid d)
  | Deleted => b p = Some (d_omode d, d_oid d) /\ t p = None /\ ~ has_dir t p
  | Typechange =>
    (b p = Some (d_omode d, d_oid d) /\ t p = Some (d_nmode d, d_nid d)) \/
    (d_omode d = MODE_TREE /\ b p = None /\ has_dir b p /\ t p = Some (d_nmode d, d_nid d)) \/
    (d_nmode d = MODE_TREE /\ b p = Some (d_omode d, d_oid d) /\ t p = None /\ has_dir t p)
  end.

(** The working directory holds exactly [b], and no empty directories. *)
Definition clean (kids : list (list Z * node)) (b : snapshot) : Prop :=
  (forall q f, lives kids q (NFile f) -> exists id, f_id f = Some id /\ b q = Some (f_mode f, id)) /\
  (forall q m id, b q = Some (m, id) -> exists f, lives kids q (NFile f)) /\
  (forall q i g sub, lives kids q (NDir i g sub) -> has_dir b q).
(** The sizes recorded for the baseline are unknown (0) or right. *)
Definition sizes_ok (ds : list delta) (kids : list (list Z * node)) : Prop :=
  forall d f, In d ds -> lives kids (d_path d) (NFile f) -> d_osize d = 0 \/ d_osize d = f_size f.

(** The files are exactly those of [t]. *)
Definition shows (fs : fsys) (t : snapshot) : Prop :=
  (forall q f, In (q, f) fs -> exists id, f_id f = Some id /\ t q = Some (f_mode f, id)) /\
  (forall q m id, t q = Some (m, id) -> exists f, In (q, f) fs /\ f_mode f = m /\ f_id f = Some id).

Definition plain (st : strategy) : Prop :=
  safe st /\ s_none st = false /\ s_update_only st = false /\ s_dry_run st = false /\ s_rmexist st = false.

Lemma filemode_facts m : filemode m -> m <> MODE_TREE /\ m <> MODE_COMMIT.
Proof. intros [->|[->| ->]]; split; discriminate. Qed.
Lemma exec_mode a b : filemode a -> filemode b -> is_exec a = is_exec b -> (a = MODE_LINK <-> b = MODE_LINK) -> a = b.
Proof. intros [->|[->| ->]] [->|[->| ->]] E L; try reflexivity; try discriminate E; exfalso; destruct L as [L1 L2]; try (discriminate (L1 eq_refl)); try (discriminate (L2 eq_refl)). Qed.

Section Clean.
Variables (kids : list (list Z * node)) (st : strategy) (ix : index) (sm cf spec : list Z -> bool) (ds : list delta) (b t : snapshot).
Hypothesis W : wf kids.
Hypothesis Tb : tree b.
Hypothesis Tt : tree t.
Hypothesis Ds : describes ds b t.
Hypothesis Ord : well_ordered ds.
Hypothesis Cl : clean kids b.
Hypothesis Sz : sizes_ok ds kids.
Hypothesis Pl : plain st.
Hypothesis Hon : index_honest ix kids.

Lemma unmodified d f : In d ds -> lives kids (d_path d) (NFile f) -> b (d_path d) = Some (d_omode d, d_oid d) ->
  f_mode f = d_omode d /\ f_id f = Some (d_oid d) /\ is_modified st ix (sm (d_path d)) d (d_path d, NFile f) = false.
Proof.
  intros Hd L B. destruct (proj1 Cl _ _ L) as (id & Ei & Eb). rewrite B in Eb. injection Eb as Em Ed.
  assert (Em' : f_mode f = d_omode d) by congruence. split; [exact Em'|]. subst id. split; [exact Ei|].
  destruct (filemode_facts _ (proj1 (proj1 Tb _ _ _ B))) as [NT NC].
  unfold is_modified. cbn [n_mode]. rewrite Em'. destruct (Z.eqb_spec (d_omode d) MODE_COMMIT) as [Q|_]; [contradiction|].
  assert (Bn : base_or_new (d_oid d) d = true). { unfold base_or_new. rewrite leqb_refl. reflexivity. }
  assert (Refl : forall m, filemode_changed m m (s_filemode st) = false).
  { intros m. unfold filemode_changed. destruct (s_filemode st); rewrite Z.eqb_refl; reflexivity. }
  assert (Slow : (if negb (d_osize d =? 0) && negb (f_size f =? d_osize d) then true
      else if filemode_changed (d_omode d) (d_omode d) (s_filemode st) then true
      else match f_id f with None => false | Some oid => negb (base_or_new oid d) end) = false).
  { assert (Q : negb (d_osize d =? 0) && negb (f_size f =? d_osize d) = false).
    { destruct (Sz d f Hd L) as [->| ->]; [reflexivity|]. rewrite Z.eqb_refl. apply andb_false_r. }
    rewrite Q, Refl, Ei, Bn. reflexivity. }
  destruct (ix_entry ix (d_path d)) as [e|] eqn:Ee; [|exact Slow].
  destruct (negb (i_newer e) && (f_mtime f =? i_mtime e) && (f_size f =? i_size e) && negb (filemode_changed (d_omode d) (i_mode e) (s_filemode st))) eqn:C; [|exact Slow].
  apply andb_prop in C. destruct C as [C C4]. apply andb_prop in C. destruct C as [C C3]. apply andb_prop in C. destruct C as [C1 C2].
  apply negb_true_iff in C1, C4. apply Z.eqb_eq in C2, C3. rewrite C4.
  assert (Eid : i_id e = d_oid d). { pose proof (Hon _ _ _ L Ee C1 C2 C3) as Q. rewrite Ei in Q. congruence. }
  rewrite Eid, Bn. reflexivity.
Qed.

Lemma no_file_below q r n : b q <> None -> ~ lives kids (q ++ slash :: r) n.
Proof.
  intros B L. destruct (b q) as [[m id]|] eqn:E; [|congruence]. destruct (proj1 (proj2 Cl) _ _ _ E) as (f & Lf).
  destruct (lives_below_inv _ _ _ W L _ _ eq_refl) as (i & g & sub & L1 & _). pose proof (lives_fun _ _ _ Lf W _ L1). discriminate.
Qed.
Lemma nothing_there p : b p = None -> ~ has_dir b p -> forall n, ~ lives kids p n.
Proof.
  intros B N [f|i g sub] L.
  - destruct (proj1 Cl _ _ L) as (id & _ & E). congruence.
  - apply N. apply (proj2 (proj2 Cl) _ _ _ _ L).
Qed.

(** What the action of a difference does in a clean working directory. *)
Definition outcome_of (d : delta) (a : action) : Prop :=
  a_conf a = false /\ a_sub a = false /\
  (a_up a = true -> t (d_path d) = Some (d_nmode d, d_nid d)) /\
  (t (d_path d) <> None -> a_up a = false -> d_status d = Unmodified /\ a_rm a = false) /\
  (t (d_path d) = None -> a_rm a = true) /\
  (a_up a = true -> a_rm a = false -> forall m id, b (d_path d) = Some (m, id) -> m = d_nmode d /\ m <> MODE_LINK) /\
  (a_rm a = true -> forall q, at_or_below (d_path d) q = true -> b q <> None -> q = d_path d \/ t q = None) /\
  (a_rm a = true -> forall q, b q <> None -> ~ starts_with (q ++ [slash]) (d_path d)).

Lemma at_below_cases p q : at_or_below p q = true -> q = p \/ exists r, q = p ++ slash :: r.
Proof.
  unfold at_or_below. intros H. apply orb_prop in H. destruct H as [H|H]; [left; apply leqb_spec in H; congruence|right].
  apply prefixb_spec in H. destruct H as [r ->]. exists r. rewrite <- app_assoc. reflexivity.
Qed.
Lemma chosen_outcome d a : In d ds -> chosen kids st ix sm cf d a -> outcome_of d a.
Proof.
  intros Hd C. destruct Pl as (Sf & P1 & P2 & P3 & P4). pose proof (proj2 Ds d Hd) as E. cbn zeta in E.
  set (p := d_path d) in *.
  (* a file of the baseline at the path *)
  assert (HasFile : forall m id, b p = Some (m, id) -> exists f, lives kids p (NFile f) /\ a = action_with_wd st ix (sm p) (cf p) d (p, NFile f)).
  { intros m id Bp. destruct (proj1 (proj2 Cl) _ _ _ Bp) as (f & L). exists f. split; [exact L|].
    destruct C as [(f0 & L0 & ->)|[(i & g & sub & L0 & _)|(N & _)]].
    - pose proof (lives_fun _ _ _ L W _ L0) as X. injection X as <-. reflexivity.
    - pose proof (lives_fun _ _ _ L W _ L0) as X. discriminate.
    - destruct (N _ L). }
  assert (BelowFile : b p <> None -> forall q, at_or_below p q = true -> b q <> None -> q = p \/ t q = None).
  { intros Bp q Q Bq. destruct (at_below_cases p q Q) as [->|(r & ->)]; [left; reflexivity|]. exfalso. apply Bq. apply (proj2 Tb). exact Bp. }
  assert (AboveFile : b p <> None -> forall q, b q <> None -> ~ starts_with (q ++ [slash]) p).
  { intros Bp q Bq [v Ev]. apply Bp. rewrite Ev, <- app_assoc. apply (proj2 Tb). exact Bq. }
  unfold outcome_of. fold p. destruct (d_status d) eqn:Es.
  - (* unmodified *) destruct E as [E1 E2]. destruct (HasFile _ _ E1) as (f & L & ->).
    destruct (unmodified d f Hd L E1) as (M1 & M2 & M3). fold p in M3.
    unfold action_with_wd. rewrite P1, Es, M3, common_none. cbn. rewrite E2. repeat split; try discriminate; congruence.
  - (* added *) destruct E as (E1 & E2 & E3). pose proof (nothing_there p E1 E2) as N.
    destruct C as [(f0 & L0 & _)|[(i & g & sub & L0 & _)|(_ & ->)]]; [destruct (N _ L0)|destruct (N _ L0)|].
    destruct (filemode_facts _ (proj1 (proj1 Tt _ _ _ E3))) as [NT NC].
    unfold action_no_wd, action_common. rewrite P1, Es, P2. cbn [a_up UPDATE_BLOB].
    destruct (Z.eqb_spec (d_nmode d) MODE_COMMIT) as [Q|_]; [contradiction|]. cbn. rewrite E3. repeat split; try discriminate; congruence.
  - (* deleted *) destruct E as (E1 & E2 & E3). destruct (HasFile _ _ E1) as (f & L & ->).
    destruct (unmodified d f Hd L E1) as (M1 & M2 & M3). fold p in M3.
    unfold action_with_wd. rewrite P1, Es, M3. unfold action_common. rewrite P2. cbn. rewrite E2.
    split; [reflexivity|]. split; [reflexivity|]. split; [discriminate|]. split; [congruence|]. split; [reflexivity|]. split; [discriminate|].
    split; intros _; [apply BelowFile|apply AboveFile]; congruence.
  - (* modified *) destruct E as (E1 & E2 & E3). destruct (HasFile _ _ E1) as (f & L & ->).
    destruct (unmodified d f Hd L E1) as (M1 & M2 & M3). fold p in M3.
    pose proof (proj1 (proj1 Tb _ _ _ E1)) as Fo. pose proof (proj1 (proj1 Tt _ _ _ E2)) as Fn.
    destruct (filemode_facts _ Fn) as [NT NC].
    unfold action_with_wd. cbn [snd n_mode]. rewrite P1, Es, M3, andb_false_r. unfold action_common. rewrite P2. cbn [a_up UPDATE_BLOB n_mode].
    destruct (Z.eqb_spec (d_nmode d) MODE_COMMIT) as [Q|_]; [contradiction|]. rewrite M1.
    assert (Fin : forall r, (r = false -> d_omode d = d_nmode d /\ d_omode d <> MODE_LINK) -> 
      let a := mkact r true false false in
      a_conf a = false /\ a_sub a = false /\ (a_up a = true -> t p = Some (d_nmode d, d_nid d)) /\
      (t p <> None -> a_up a = false -> Modified = Unmodified /\ a_rm a = false) /\ (t p = None -> a_rm a = true) /\
      (a_up a = true -> a_rm a = false -> forall m id, b p = Some (m, id) -> m = d_nmode d /\ m <> MODE_LINK) /\
      (a_rm a = true -> forall q, at_or_below p q = true -> b q <> None -> q = p \/ t q = None) /\
      (a_rm a = true -> forall q, b q <> None -> ~ starts_with (q ++ [slash]) p)).
    { intros r Hr. cbn. split; [reflexivity|]. split; [reflexivity|]. split; [intros _; exact E2|]. split; [discriminate|]. split; [congruence|]. split.
      - intros _ Q m id B. rewrite E1 in B. injection B as <- <-. apply Hr. exact Q.
      - split; intros _; [apply BelowFile|apply AboveFile]; congruence. }
    destruct (Z.eqb_spec (d_nmode d) MODE_LINK) as [Lk|Lk]; cbn [a_rm a_up a_sub a_conf UPDATE_BLOB];
      (destruct (Bool.eqb (is_exec (d_omode d)) (is_exec (d_nmode d))) eqn:Ex; apply Fin; try discriminate).
    intros _. apply eqb_prop in Ex. split; [apply exec_mode; assumption|]. intros Q. apply Lk. apply E3. exact Q.
  - (* type change *) destruct E as [(E1 & E2)|[(E0 & E1 & E2 & E3)|(E0 & E1 & E2 & E3)]].
    + destruct (HasFile _ _ E1) as (f & L & ->).
      destruct (unmodified d f Hd L E1) as (M1 & M2 & M3). fold p in M3.
      destruct (filemode_facts _ (proj1 (proj1 Tb _ _ _ E1))) as [OT OC]. destruct (filemode_facts _ (proj1 (proj1 Tt _ _ _ E2))) as [NT NC].
      unfold action_with_wd. rewrite P1, Es, M3.
      destruct (Z.eqb_spec (d_omode d) MODE_TREE) as [Q|_]; [contradiction|]. destruct (Z.eqb_spec (d_nmode d) MODE_TREE) as [Q|_]; [contradiction|].
      unfold action_common. rewrite P2. cbn [a_up REMOVE_AND_UPDATE]. destruct (Z.eqb_spec (d_nmode d) MODE_COMMIT) as [Q|_]; [contradiction|].
      assert (Fin : let a := mkact true true false false in
        a_conf a = false /\ a_sub a = false /\ (a_up a = true -> t p = Some (d_nmode d, d_nid d)) /\
        (t p <> None -> a_up a = false -> Typechange = Unmodified /\ a_rm a = false) /\ (t p = None -> a_rm a = true) /\
        (a_up a = true -> a_rm a = false -> forall m id, b p = Some (m, id) -> m = d_nmode d /\ m <> MODE_LINK) /\
        (a_rm a = true -> forall q, at_or_below p q = true -> b q <> None -> q = p \/ t q = None) /\
        (a_rm a = true -> forall q, b q <> None -> ~ starts_with (q ++ [slash]) p)).
      { cbn. split; [reflexivity|]. split; [reflexivity|]. split; [intros _; exact E2|]. split; [discriminate|]. split; [reflexivity|]. split; [discriminate|].
        split; intros _; [apply BelowFile|apply AboveFile]; congruence. }
      destruct (d_nmode d =? MODE_LINK); cbn [a_rm a_up a_sub a_conf REMOVE_AND_UPDATE]; destruct (Bool.eqb _ _); exact Fin.
    + (* directory to file *)
      assert (Hdir : exists i g sub, lives kids p (NDir i g sub) /\ a = dir_action st ix (sm p) (cf p) d (p ++ [slash], NDir i g sub)).
      { destruct C as [(f0 & L0 & _)|[(i & g & sub & L0 & Q)|(N & _)]].
        - destruct (proj1 Cl _ _ L0) as (id & _ & Q). fold p in Q. congruence.
        - exists i, g, sub. split; assumption.
        - destruct E2 as [r Br]. destruct (b (p ++ slash :: r)) as [[m id]|] eqn:Q; [|congruence]. destruct (proj1 (proj2 Cl) _ _ _ Q) as (f & L).
          destruct (lives_below_inv _ _ _ W L _ _ eq_refl) as (i & g & sub & L1 & _). destruct (N _ L1). }
      destruct Hdir as (i & g & sub & L & ->). destruct (filemode_facts _ (proj1 (proj1 Tt _ _ _ E3))) as [NT NC].
      unfold dir_action. rewrite Es, E0, Z.eqb_refl. cbn [orb]. unfold action_with_wd. cbn [snd n_mode]. rewrite P1, Es, E0, !Z.eqb_refl.
      destruct (Z.eqb_spec (d_nmode d) MODE_TREE) as [Q|_]; [contradiction|].
      unfold action_common. rewrite P2. cbn [a_up UPDATE_BLOB]. destruct (Z.eqb_spec (d_nmode d) MODE_COMMIT) as [Q|_]; [contradiction|].
      assert (Fin : forall r, let a := mkact r true false false in
        a_conf a = false /\ a_sub a = false /\ (a_up a = true -> t p = Some (d_nmode d, d_nid d)) /\
        (t p <> None -> a_up a = false -> Typechange = Unmodified /\ a_rm a = false) /\ (t p = None -> a_rm a = true) /\
        (a_up a = true -> a_rm a = false -> forall m id, b p = Some (m, id) -> m = d_nmode d /\ m <> MODE_LINK) /\
        (a_rm a = true -> forall q, at_or_below p q = true -> b q <> None -> q = p \/ t q = None) /\
        (a_rm a = true -> forall q, b q <> None -> ~ starts_with (q ++ [slash]) p)).
      { intros r. cbn. split; [reflexivity|]. split; [reflexivity|]. split; [intros _; exact E3|]. split; [discriminate|]. split; [congruence|].
        split; [intros _ _ m id Q; congruence|]. split; intros _.
        - intros q Q _. destruct (at_below_cases p q Q) as [->|(r' & ->)]; [left; reflexivity|right]. apply (proj2 Tt). congruence.
        - intros q Bq [v Ev]. destruct E2 as [r' Br]. apply Br. rewrite Ev, <- !app_assoc. cbn [app]. apply (proj2 Tb). exact Bq. }
      destruct (d_nmode d =? MODE_LINK); cbn [a_rm a_up a_sub a_conf UPDATE_BLOB]; destruct (Bool.eqb _ _); apply Fin.
    + (* file to directory *)
      destruct (HasFile _ _ E1) as (f & L & ->).
      destruct (unmodified d f Hd L E1) as (M1 & M2 & M3). fold p in M3.
      destruct (filemode_facts _ (proj1 (proj1 Tb _ _ _ E1))) as [OT OC].
      unfold action_with_wd. rewrite P1, Es, M3, E0, Z.eqb_refl.
      destruct (Z.eqb_spec (d_omode d) MODE_TREE) as [Q|_]; [contradiction|].
      unfold action_common. rewrite P2. cbn. split; [reflexivity|]. split; [reflexivity|]. split; [discriminate|]. split; [congruence|]. split; [reflexivity|]. split; [discriminate|].
      split; intros _; [apply BelowFile|apply AboveFile]; congruence.
Qed.
End Clean.

(** * The removals *)
Lemma remove_spec l : (forall d a, In (d, a) l -> last (d_path d) 0 <> slash) -> forall fs,
  (forall e d a, In e fs -> In (d, a) l -> a_rm a = true -> ~ starts_with (fst e ++ [slash]) (d_path d)) ->
  forall e, In e (remove_the_old l [] fs) <->
    In e fs /\ forall d a, In (d, a) l -> a_rm a = true -> at_or_below (d_path d) (fst e) = false.
Proof.
  unfold remove_the_old. cbn [fold_left].
  induction l as [|[d a] r IH]; intros NL fs NB e; cbn [each].
  { cbn [fst]. split; [intros H; split; [exact H|intros ? ? []]|intros [H _]; exact H]. }
  assert (NL' : forall d' a', In (d', a') r -> last (d_path d') 0 <> slash) by (intros d' a' Q; apply (NL d' a'); right; exact Q).
  destruct (a_rm a) eqn:Ra.
  - assert (Sp : forall x, In x (rmdir_r (d_path d) fs) <-> In x fs /\ at_or_below (d_path d) (fst x) = false).
    { intros x. unfold rmdir_r. rewrite strip_id by (apply (NL d a); left; reflexivity).
      destruct (existsb (fun e0 => at_or_below (d_path d) (fst e0)) fs) eqn:Ex.
      - rewrite filter_In. rewrite negb_true_iff. reflexivity.
      - rewrite filter_In. split; intros [H1 H2]; (split; [exact H1|]).
        + destruct (at_or_below (d_path d) (fst x)) eqn:Q; [|reflexivity]. rewrite <- Ex. symmetry. apply existsb_exists. exists x. split; assumption.
        + destruct (prefixb (fst x ++ [slash]) (d_path d)) eqn:Q; [|reflexivity]. exfalso. apply prefixb_spec in Q.
          apply (NB x d a H1 (or_introl eq_refl) Ra Q). }
    rewrite IH; [|exact NL'|intros x d' a' Hx Hd'; apply NB; [apply Sp; exact Hx|right; exact Hd']].
    rewrite Sp. split.
    + intros [[H1 H2] H3]. split; [exact H1|]. intros d' a' [Q|Q]; [injection Q as <- <-; intros _; exact H2|apply H3; exact Q].
    + intros [H1 H2]. split; [split; [exact H1|apply (H2 d a); [left; reflexivity|exact Ra]]|]. intros d' a' Q. apply H2. right. exact Q.
  - rewrite IH; [|exact NL'|intros x d' a' Hx Hd'; apply NB; [exact Hx|right; exact Hd']].
    split; intros [H1 H2]; (split; [exact H1|]).
    + intros d' a' [Q|Q]; [injection Q as <- <-; congruence|apply H2; exact Q].
    + intros d' a' Q. apply H2. right. exact Q.
Qed.

(** * The writes *)
(** [pend] are the paths still to be written. *)
Definition good (t : snapshot) (pend : list Z -> Prop) (fs : fsys) : Prop :=
  (forall q f, In (q, f) fs -> exists m id, t q = Some (m, id) /\ f_mode f = m /\
     ((~ pend q /\ f_id f = Some id) \/ (pend q /\ m <> MODE_LINK))) /\
  (forall q m id, t q = Some (m, id) -> pend q \/ exists f, In (q, f) fs /\ f_mode f = m /\ f_id f = Some id).

Lemma write_step t st p m id pend fs : tree t -> s_rmexist st = false ->
  good t pend fs -> pend p -> t p = Some (m, id) ->
  exists fs', write_content st p m id fs = (fs', WOk) /\ good t (fun q => pend q /\ q <> p) fs'.
Proof.
  intros Tt R [G1 G2] Pp Tp. unfold write_content. rewrite (proj2 (proj1 Tt _ _ _ Tp)). unfold mkpath2file. rewrite R.
  assert (N1 : existsb (fun e => prefixb (fst e ++ [slash]) p) fs = false).
  { apply not_true_iff_false. intros Q. apply existsb_exists in Q. destruct Q as ([q f] & Hq & Q). cbn [fst] in Q. apply prefixb_spec in Q. destruct Q as [v Ev].
    destruct (G1 _ _ Hq) as (m' & id' & Tq & _). rewrite <- app_assoc in Ev. cbn [app] in Ev. rewrite Ev in Tp. rewrite (proj2 Tt q v) in Tp by congruence. discriminate. }
  assert (N2 : existsb (fun e => prefixb (p ++ [slash]) (fst e)) fs = false).
  { apply not_true_iff_false. intros Q. apply existsb_exists in Q. destruct Q as ([q f] & Hq & Q). cbn [fst] in Q. apply prefixb_spec in Q. destruct Q as [v Ev].
    destruct (G1 _ _ Hq) as (m' & id' & Tq & _). rewrite <- app_assoc in Ev. cbn [app] in Ev. rewrite Ev in Tq. rewrite (proj2 Tt p v) in Tq by congruence. discriminate. }
  rewrite N1, N2.
  assert (New : forall fs1, (forall q f, In (q, f) fs1 -> In (q, f) fs /\ q <> p) -> (forall q f, In (q, f) fs -> q <> p -> In (q, f) fs1) ->
    good t (fun q => pend q /\ q <> p) ((p, mkfile m (Some id) 0 0 false) :: fs1)).
  { intros fs1 A B. split.
    - intros q f [Q|Q].
      + injection Q as <- <-. exists m, id. split; [exact Tp|]. split; [reflexivity|]. left. split; [intros [_ Z]; apply Z; reflexivity|reflexivity].
      + destruct (A _ _ Q) as [Q1 Q2]. destruct (G1 _ _ Q1) as (m' & id' & Tq & Em & [[X1 X2]|[X1 X2]]); exists m', id'; (split; [exact Tq|]); (split; [exact Em|]).
        * left. split; [intros [Z _]; contradiction|exact X2].
        * right. split; [split; assumption|exact X2].
    - intros q m' id' Tq. destruct (list_eq_dec Z.eq_dec q p) as [->|Np].
      + right. exists (mkfile m (Some id) 0 0 false). split; [left; reflexivity|]. rewrite Tp in Tq. injection Tq as <- <-. split; reflexivity.
      + destruct (G2 _ _ _ Tq) as [Z|(f & Hf & E)]; [left; split; assumption|right]. exists f. split; [right; apply B; assumption|exact E]. }
  unfold find_file. destruct (find (fun e => leqb p (fst e)) fs) as [[q f]|] eqn:Fd.
  - apply find_some in Fd. destruct Fd as [Fi Fe]. cbn [fst] in Fe. apply leqb_spec in Fe. subst q. cbn [snd].
    destruct (G1 _ _ Fi) as (m' & id' & Tq & Em & [[X1 X2]|[X1 X2]]); [contradiction|]. rewrite Tp in Tq. injection Tq as <- <-.
    destruct (Z.eqb_spec m MODE_LINK) as [Q|_]; [contradiction|]. eexists. split; [reflexivity|]. rewrite Em. apply New.
    + intros q g Q. apply filter_In in Q. destruct Q as [Q1 Q2]. split; [exact Q1|]. cbn [fst] in Q2. intros ->. rewrite leqb_refl in Q2. discriminate.
    + intros q g Q Nq. apply filter_In. split; [exact Q|]. cbn [fst]. destruct (leqb p q) eqn:E; [apply leqb_spec in E; congruence|reflexivity].
  - eexists. split; [reflexivity|]. apply New; [|auto]. intros q g Q. split; [exact Q|]. intros ->.
    pose proof (find_none _ _ Fd _ Q) as E. cbn [fst] in E. rewrite leqb_refl in E. discriminate.
Qed.

Lemma good_ext t P Q fs : (forall q, P q <-> Q q) -> good t P fs -> good t Q fs.
Proof.
  intros E [G1 G2]. split.
  - intros q f H. destruct (G1 q f H) as (m & id & A & B & [[C D]|[C D]]); exists m, id; (split; [exact A|]); (split; [exact B|]);
      [left; split; [rewrite <- E; exact C|exact D]|right; split; [rewrite <- E; exact C|exact D]].
  - intros q m id H. destruct (G2 q m id H) as [A|A]; [left; apply E; exact A|right; exact A].
Qed.
Lemma write_pass t st sel : tree t -> s_rmexist st = false -> s_update_only st = false -> forall l,
  NoDup (map (fun x => d_path (fst x)) l) ->
  (forall d a, In (d, a) l -> sel d a = true -> t (d_path d) = Some (d_nmode d, d_nid d)) ->
  forall (other : list Z -> Prop) fs, (forall d a, In (d, a) l -> sel d a = true -> ~ other (d_path d)) ->
  good t (fun q => (exists d a, In (d, a) l /\ sel d a = true /\ d_path d = q) \/ other q) fs ->
  exists fs', each sel (checkout_blob st) l fs = (fs', true) /\ good t other fs'.
Proof.
  intros Tt R U. induction l as [|[d a] r IH]; intros ND T other fs Ot G; cbn [each].
  - exists fs. split; [reflexivity|]. apply good_ext with (2 := G). intros q. split; [intros [(? & ? & [] & _)|H]; exact H|intros H; right; exact H].
  - cbn [map fst] in ND. inversion ND as [|? ? ND1 ND2]; subst.
    assert (NR : forall d' a', In (d', a') r -> d_path d' <> d_path d).
    { intros d' a' Q E. apply ND1. rewrite <- E. apply (in_map (fun x => d_path (fst x))) in Q. exact Q. }
    destruct (sel d a) eqn:Se.
    + pose proof (T d a (or_introl eq_refl) Se) as Td.
      destruct (write_step t st (d_path d) (d_nmode d) (d_nid d) _ fs Tt R G) as (fs1 & Ew & G'); [left; exists d, a; split; [left; reflexivity|split; [exact Se|reflexivity]]|exact Td|].
      unfold checkout_blob at 1. rewrite U, Ew. cbn [andb]. apply IH; [exact ND2|intros d' a' Q; apply T; right; exact Q|intros d' a' Q; apply Ot; right; exact Q|].
      apply good_ext with (2 := G'). intros q. split.
      * intros [[(d' & a' & [Q|Q] & Sd & E)|O1] Nq]; [injection Q as <- <-; congruence|left; exists d', a'; auto|right; exact O1].
      * intros [(d' & a' & Q & Sd & E)|O1].
        -- split; [left; exists d', a'; split; [right; exact Q|auto]|]. rewrite <- E. apply (NR _ _ Q).
        -- split; [right; exact O1|]. intros ->. apply (Ot d a (or_introl eq_refl) Se O1).
    + apply IH; [exact ND2|intros d' a' Q; apply T; right; exact Q|intros d' a' Q; apply Ot; right; exact Q|].
      apply good_ext with (2 := G). intros q. split.
      * intros [(d' & a' & [Q|Q] & Sd & E)|O1]; [injection Q as <- <-; congruence|left; exists d', a'; auto|right; exact O1].
      * intros [(d' & a' & Q & Sd & E)|O1]; [left; exists d', a'; split; [right; exact Q|auto]|right; exact O1].
Qed.
Lemma each_none sel op l fs : (forall d a, In (d, a) l -> sel d a = false) -> each sel op l fs = (fs, true).
Proof.
  induction l as [|[d a] r IH]; intros H; cbn [each]; [reflexivity|]. rewrite (H d a (or_introl eq_refl)). apply IH. intros d' a' Q. apply H. right. exact Q.
Qed.
Lemma sorted_nodup ds : StronglySorted (fun a b => lex (d_path a) (d_path b) = Lt) ds -> NoDup (map d_path ds).
Proof.
  induction 1 as [|d r H IH F]; cbn [map]; constructor; [|exact IH]. intros Q. apply in_map_iff in Q. destruct Q as (d' & E & Q).
  rewrite Forall_forall in F. specialize (F d' Q). rewrite E in F. apply (lex_irrefl _ F).
Qed.

(** The working directory holds exactly the baseline: the checkout succeeds and it then holds exactly
    the target. *)
Theorem C48_clean_checkout_partial : forall st ix sm cf spec ds kids b t,
  wf kids -> tree b -> tree t -> describes ds b t -> well_ordered ds -> clean kids b -> sizes_ok ds kids ->
  plain st -> index_honest ix kids -> no_shadows ds kids ->
  exists fs, checkout st ix sm cf spec ds (workdir kids) = Some (Done fs) /\ shows fs t.
Proof.
  intros st ix sm cf spec ds kids b t W Tb Tt Ds O1 Cl Sz Pl HI Sh.
  assert (Filemode : forall q f, lives kids q (NFile f) -> b q <> None).
  { intros q f L. destruct (proj1 Cl _ _ L) as (id & _ & E). congruence. }
  assert (B : no_blockers ([] ++ ds) kids).
  { intros d q f Hd L Sw. cbn [app] in Hd. destruct Sw as [v Ev].
    assert (Bq : b q <> None) by (apply (Filemode q f L)).
    assert (Bp : b (d_path d) = None). { rewrite Ev, <- app_assoc. apply (proj2 Tb). exact Bq. }
    split.
    - pose proof (proj2 Ds d Hd) as E. cbn zeta in E. destruct (d_status d); [|reflexivity| | |].
      + destruct E as [E _]. congruence.
      + destruct E as [E _]. congruence.
      + destruct E as [E _]. congruence.
      + exfalso. destruct E as [[E _]|[(_ & _ & [r Br] & _)|(_ & E & _)]]; [congruence| |congruence].
        apply Br. rewrite Ev, <- !app_assoc. cbn [app]. apply (proj2 Tb). exact Bq.
    - cbn [app]. destruct (proj1 Ds q (or_introl Bq)) as (d0 & H0 & E0). exists d0. split; assumption. }
  destruct (actions_total st ix sm cf spec ds (workdir kids)) as (l & it & rms & A).
  destruct (remaining_total (Datatypes.S (isize it)) st ix spec it) as (rms' & Rm); [lia|].
  destruct (actions_chosen kids st ix sm cf spec W [] ds O1 B Sh) with (4 := A) as (M & C & E).
  { intros d i g sub Hd Ty L. pose proof (proj2 Ds d Hd) as Q. cbn zeta in Q. rewrite Ty in Q.
    destruct Q as [(Q & _)|[(Q & _)|(_ & Q & _)]]; [exfalso|exact Q|exfalso];
      destruct (proj1 (proj2 Cl) _ _ _ Q) as (f & Lf); pose proof (lives_fun _ _ _ L W _ Lf); discriminate. }
  { intros z d _ []. }
  { intros d _. apply inv_start. exact W. }
  assert (Safe : safe st) by apply Pl. destruct Pl as (_ & P1 & P2 & P3 & P4).
  assert (In_ds : forall d a, In (d, a) l -> In d ds) by (intros d a Q; rewrite <- M; apply (in_map fst) in Q; exact Q).
  assert (Act : forall d, In d ds -> exists a, In (d, a) l).
  { intros d Hd. rewrite <- M in Hd. apply in_map_iff in Hd. destruct Hd as ([d' a] & Q & Hd). cbn in Q. subst d'. exists a. exact Hd. }
  assert (Out : forall d a, In (d, a) l -> outcome_of b t d a).
  { intros d a Q. apply (chosen_outcome kids st ix sm cf ds b t); try assumption; [repeat split; try assumption; apply Safe|eapply In_ds; exact Q|apply C; exact Q]. }
  unfold checkout. rewrite A, Rm, (E Safe), (remaining_safe st ix spec Safe _ _ _ Rm), P3. cbn [app].
  assert (NC : existsb (fun x => a_conf (snd x)) l = false).
  { apply not_true_iff_false. intros Q. apply existsb_exists in Q. destruct Q as ([d a] & Hl & Q). cbn [snd] in Q. destruct (Out d a Hl) as (Q' & _). congruence. }
  rewrite NC. cbn [andb].
  set (fs0 := files (workdir kids)).
  assert (F0 : forall q f, In (q, f) fs0 <-> lives kids q (NFile f)) by (intros; apply files_lives; exact W).
  assert (Rs := remove_spec l (fun d a Q => proj2 (proj2 O1 d (In_ds d a Q))) fs0).
  assert (Rs' : forall e, In e (remove_the_old l [] fs0) <-> In e fs0 /\ forall d a, In (d, a) l -> a_rm a = true -> at_or_below (d_path d) (fst e) = false).
  { apply Rs. intros [q f] d a He Hl Ra. cbn [fst]. apply (Out d a Hl); [exact Ra|]. apply (Filemode q f). apply F0. exact He. }
  clear Rs. set (fs1 := remove_the_old l [] fs0) in *.
  set (up := fun d a => a_up a && negb (d_nmode d =? MODE_LINK)). set (lk := fun d a => a_up a && (d_nmode d =? MODE_LINK)).
  assert (NDl : NoDup (map (fun x : delta * action => d_path (fst x)) l)).
  { rewrite <- map_map with (f := fst). rewrite M. apply sorted_nodup. apply O1. }
  assert (Same : forall d a d' a', In (d, a) l -> In (d', a') l -> d_path d = d_path d' -> d = d' /\ a = a').
  { intros d a d' a' H H' Q. clear -NDl H H' Q. induction l as [|[d0 a0] r IH]; [destruct H|]. cbn [map fst] in NDl. inversion NDl as [|? ? N1 N2]; subst.
    destruct H as [H|H], H' as [H'|H'].
    - split; congruence.
    - injection H as -> ->. exfalso. apply N1. rewrite Q. apply (in_map (fun x => d_path (fst x))) in H'. exact H'.
    - injection H' as -> ->. exfalso. apply N1. rewrite <- Q. apply (in_map (fun x => d_path (fst x))) in H. exact H.
    - apply IH; assumption. }
  set (pend := fun (sel : delta -> action -> bool) q => exists d a, In (d, a) l /\ sel d a = true /\ d_path d = q).
  assert (Kept : forall q f, In (q, f) fs1 -> exists d a, In (d, a) l /\ d_path d = q /\ a_rm a = false).
  { intros q f H. apply Rs' in H. destruct H as [H1 H2]. apply F0 in H1. destruct (proj1 Ds q (or_introl (Filemode q f H1))) as (d & Hd & Eq).
    destruct (Act d Hd) as (a & Ha). exists d, a. split; [exact Ha|]. split; [exact Eq|].
    destruct (a_rm a) eqn:Ra; [|reflexivity]. specialize (H2 d a Ha Ra). cbn [fst] in H2. rewrite Eq in H2. unfold at_or_below in H2. rewrite leqb_refl in H2. discriminate. }
  assert (G1 : good t (fun q => pend up q \/ pend lk q) fs1).
  { split.
    - intros q f H. destruct (Kept q f H) as (d & a & Ha & Eq & Ra). apply Rs' in H. destruct H as [H1 H2]. apply F0 in H1.
      destruct (proj1 Cl _ _ H1) as (id0 & Ei & Eb). destruct (Out d a Ha) as (_ & _ & X1 & X2 & X3 & X4 & _). rewrite Eq in *.
      destruct (t q) as [[m id]|] eqn:Et; [|rewrite (X3 eq_refl) in Ra; discriminate].
      exists m, id. split; [reflexivity|]. destruct (a_up a) eqn:Ua.
      + specialize (X1 eq_refl). injection X1 as -> ->. destruct (X4 eq_refl Ra _ _ Eb) as [Q1 Q2]. split; [exact Q1|]. right.
        split; [left; exists d, a; split; [exact Ha|split; [|exact Eq]]|congruence]. unfold up. rewrite Ua, <- Q1. destruct (Z.eqb_spec (f_mode f) MODE_LINK); [contradiction|reflexivity].
      + destruct (X2 ltac:(discriminate) eq_refl) as [Un _]. pose proof (proj2 Ds d (In_ds d a Ha)) as Q. cbn zeta in Q. rewrite Un, Eq in Q. destruct Q as [Q1 Q2].
        rewrite Eb in Q1. rewrite Et in Q2. injection Q1 as Q1 Q1'. injection Q2 as -> ->. split; [exact Q1|]. left. split; [|congruence].
        intros [(d' & a' & Hd' & Sd & Eq')|(d' & a' & Hd' & Sd & Eq')]; destruct (Same d a d' a' Ha Hd' ltac:(congruence)) as [<- <-]; apply andb_prop in Sd; destruct Sd; congruence.
    - intros q m id Et. destruct (proj1 Ds q) as (d & Hd & Eq); [right; congruence|]. destruct (Act d Hd) as (a & Ha).
      destruct (Out d a Ha) as (_ & _ & X1 & X2 & X3 & X4 & X5 & X6). destruct (a_up a) eqn:Ua.
      + left. destruct (d_nmode d =? MODE_LINK) eqn:Lk; [right|left]; exists d, a; (split; [exact Ha|]); unfold up, lk; rewrite Ua, Lk; split; auto.
      + right. rewrite Eq in X2. destruct (X2 ltac:(congruence) eq_refl) as [Un Ra]. pose proof (proj2 Ds d Hd) as Q. cbn zeta in Q. rewrite Un, Eq in Q. destruct Q as [Q1 Q2].
        rewrite Et in Q2. injection Q2 as -> ->. destruct (proj1 (proj2 Cl) _ _ _ Q1) as (f & L). exists f.
        destruct (proj1 Cl _ _ L) as (id0 & Ei & Eb). rewrite Q1 in Eb. injection Eb as Em <-. split; [|split; [congruence|exact Ei]].
        apply Rs'. split; [apply F0; exact L|]. cbn [fst]. intros d' a' Ha' Ra'. destruct (at_or_below (d_path d') q) eqn:Ab; [|reflexivity]. exfalso.
        destruct (Out d' a' Ha') as (_ & _ & _ & _ & _ & _ & Y5 & _). destruct (Y5 Ra' q Ab ltac:(congruence)) as [Q|Q]; [|congruence].
        destruct (Same d a d' a' Ha Ha' ltac:(congruence)) as [<- <-]. congruence. }
  destruct (write_pass t st up Tt P4 P2 l NDl) with (other := pend lk) (fs := fs1) as (fs2 & Ew & G2).
  - intros d a Ha Sd. apply andb_prop in Sd. apply (Out d a Ha). apply Sd.
  - intros d a Ha Sd (d' & a' & Ha' & Sd' & Eq). destruct (Same d a d' a' Ha Ha' ltac:(congruence)) as [<- <-].
    apply andb_prop in Sd, Sd'. destruct Sd as [_ S1], Sd' as [_ S2]. rewrite S2 in S1. discriminate.
  - exact G1.
  - destruct (write_pass t st lk Tt P4 P2 l NDl) with (other := fun _ : list Z => False) (fs := fs2) as (fs3 & Ew3 & G3).
    + intros d a Ha Sd. apply andb_prop in Sd. apply (Out d a Ha). apply Sd.
    + intros d a Ha Sd [].
    + apply good_ext with (2 := G2). intros q. unfold pend. split; [intros H; left; exact H|intros [H|[]]; exact H].
    + exists fs3. unfold create_the_new. fold up. fold lk. rewrite Ew, Ew3.
      rewrite each_none; [|intros d a Ha; apply (Out d a Ha)].
      split; [reflexivity|]. destruct G3 as [G3 G4]. split.
      * intros q f H. destruct (G3 q f H) as (m & id & Et & Em & [[_ Ei]|[[] _]]). exists id. split; [exact Ei|]. rewrite Em. exact Et.
      * intros q m id Et. destruct (G4 q m id Et) as [[]|H]. exact H.
Qed.
Print Assumptions C48_clean_checkout_partial.

(** * Concrete cases *)
Definition snap (l : list (list Z * (Z * list Z))) : snapshot :=
  fun q => match find (fun e => leqb q (fst e)) l with Some e => Some (snd e) | None => None end.

(** "k" stays, "d/x" (a directory) becomes the file "d", the file "f" becomes the directory "f/y",
    "m" is modified and made executable, "z" is added. *)
Definition cb := snap [(path "d/x", (MODE_BLOB, bs "x")); (path "f", (MODE_BLOB, bs "f")); (path "k", (MODE_BLOB, bs "k")); (path "m", (MODE_BLOB, bs "m"))].
Definition ct := snap [(path "d", (MODE_BLOB, bs "d2")); (path "f/y", (MODE_BLOB, bs "y2")); (path "k", (MODE_BLOB, bs "k")); (path "m", (MODE_EXEC, bs "m2")); (path "z", (MODE_LINK, bs "z2"))].
Definition cds := [D Typechange "d" MODE_TREE "" MODE_BLOB "d2"; D Deleted "d/x" MODE_BLOB "x" 0 ""; D Typechange "f" MODE_BLOB "f" MODE_TREE "";
  D Added "f/y" 0 "" MODE_BLOB "y2"; D Unmodified "k" MODE_BLOB "k" MODE_BLOB "k"; D Modified "m" MODE_BLOB "m" MODE_EXEC "m2"; D Added "z" 0 "" MODE_LINK "z2"].
Definition ckids := [(path "d", dir [(path "x", fl "x")]); (path "f", fl "f"); (path "k", fl "k"); (path "m", fl "m")].
Example C48_case : exists fs, run dflt cds ckids = Some (Done fs) /\
  map (fun e => (fst e, (f_mode (snd e), f_id (snd e)))) fs =
  [(path "z", (MODE_LINK, Some (bs "z2"))); (path "m", (MODE_EXEC, Some (bs "m2"))); (path "f/y", (MODE_BLOB, Some (bs "y2"))); (path "d", (MODE_BLOB, Some (bs "d2"))); (path "k", (MODE_BLOB, Some (bs "k")))].
Proof. eexists. split; [vm_compute; reflexivity|vm_compute; reflexivity]. Qed.

Lemma snap_in l q m : snap l q = Some m -> In (q, m) l.
Proof.
  unfold snap. destruct (find _ l) as [[q' m']|] eqn:F; [|discriminate]. intros E. injection E as <-. apply find_some in F. destruct F as [F1 F2].
  cbn [fst] in F2. apply leqb_spec in F2. subst. exact F1.
Qed.
Lemma snap_none l q : ~ In q (map fst l) -> snap l q = None.
Proof.
  unfold snap. intros H. destruct (find _ l) as [[q' m']|] eqn:F; [|reflexivity]. apply find_some in F. destruct F as [F1 F2].
  cbn [fst] in F2. apply leqb_spec in F2. subst. exfalso. apply H. apply (in_map fst) in F1. exact F1.
Qed.
Lemma snap_some l q : snap l q <> None -> In q (map fst l).
Proof. intros H. destruct (snap l q) as [m|] eqn:E; [|congruence]. apply snap_in in E. apply (in_map fst) in E. exact E. Qed.

Lemma ckids_lives q n : lives ckids q n ->
  (q = path "d" /\ n = dir [(path "x", fl "x")]) \/ (q = path "d/x" /\ n = fl "x") \/ (q = path "f" /\ n = fl "f") \/ (q = path "k" /\ n = fl "k") \/ (q = path "m" /\ n = fl "m").
Proof.
  intros L. apply lives_inv in L. destruct L as [[E|[E|[E|[E|[]]]]]|(name & i & g & sub & r & [E|[E|[E|[E|[]]]]] & -> & L)]; try (discriminate E).
  - injection E as <- <-. auto 10.
  - injection E as <- <-. auto 10.
  - injection E as <- <-. auto 10.
  - injection E as <- <-. auto 10.
  - injection E as <- <- <- <-. apply lives_inv in L. destruct L as [[E|[]]|(name & i & g & sub & r' & [E|[]] & -> & L)]; try discriminate E. injection E as <- <-. auto 10.
Qed.
Example C48_case_meets :
  wf ckids /\ tree cb /\ tree ct /\ describes cds cb ct /\ well_ordered cds /\ clean ckids cb /\ sizes_ok cds ckids /\ plain dflt /\
  index_honest noix ckids /\ no_shadows cds ckids.
Proof.
  split; [|split; [|split; [|split; [|split; [|split; [|split; [|split; [|split]]]]]]]].
  - assert (Sub : wf [(path "x", fl "x")]).
    { constructor.
      - intros name n [E|[]]; injection E as <- <-; (split; [discriminate|]); intros Q; cbn in Q; intuition discriminate.
      - intros name f [E|[]]; injection E as <- <-; discriminate.
      - intros name i g sub [E|[]]; discriminate.
      - repeat constructor; cbn; intuition discriminate.
      - constructor; constructor. }
    constructor.
    + intros name n [E|[E|[E|[E|[]]]]]; injection E as <- <-; (split; [discriminate|]); intros Q; cbn in Q; intuition discriminate.
    + intros name f [E|[E|[E|[E|[]]]]]; try discriminate; injection E as <- <-; discriminate.
    + intros name i g sub [E|[E|[E|[E|[]]]]]; try discriminate. injection E as <- <- <- <-. exact Sub.
    + repeat constructor; cbn; intuition discriminate.
    + repeat (constructor; [|repeat (constructor; [reflexivity|]); constructor]). constructor.
  - split.
    + intros q m id E. apply snap_in in E. unfold filemode. repeat (destruct E as [E|E]; [injection E as <- <- <-; auto|]). destruct E.
    + intros q r H. apply snap_some in H. apply snap_none. cbn in H |- *. intuition (subst q; discriminate).
  - split.
    + intros q m id E. apply snap_in in E. unfold filemode. repeat (destruct E as [E|E]; [injection E as <- <- <-; auto|]). destruct E.
    + intros q r H. apply snap_some in H. apply snap_none. cbn in H |- *. intuition (subst q; discriminate).
  - split.
    + intros q [H|H]; apply snap_some in H; cbn in H;
        intuition (subst q; match goal with |- exists d, _ /\ d_path d = ?p => 
          first [exists (nth 0 cds (D Added "" 0 "" 0 "")); split; [cbn; tauto|reflexivity]
                |exists (nth 1 cds (D Added "" 0 "" 0 "")); split; [cbn; tauto|reflexivity]
                |exists (nth 2 cds (D Added "" 0 "" 0 "")); split; [cbn; tauto|reflexivity]
                |exists (nth 3 cds (D Added "" 0 "" 0 "")); split; [cbn; tauto|reflexivity]
                |exists (nth 4 cds (D Added "" 0 "" 0 "")); split; [cbn; tauto|reflexivity]
                |exists (nth 5 cds (D Added "" 0 "" 0 "")); split; [cbn; tauto|reflexivity]
                |exists (nth 6 cds (D Added "" 0 "" 0 "")); split; [cbn; tauto|reflexivity]] end).
    + intros d Hd.
      assert (NoDir : forall l p, (forall r, ~ In (p ++ slash :: r) (map fst l)) -> ~ has_dir (snap l) p).
      { intros l p N [r H]. apply snap_some in H. apply (N r H). }
      destruct Hd as [<-|[<-|[<-|[<-|[<-|[<-|[<-|[]]]]]]]]; cbn zeta.
      * right. left. split; [reflexivity|]. split; [reflexivity|]. split; [exists (path "x"); vm_compute; discriminate|reflexivity].
      * split; [reflexivity|]. split; [reflexivity|]. apply NoDir. intros r H. cbn in H. intuition discriminate.
      * right. right. split; [reflexivity|]. split; [reflexivity|]. split; [reflexivity|exists (path "y"); vm_compute; discriminate].
      * split; [reflexivity|]. split; [|reflexivity]. apply NoDir. intros r H. cbn in H. intuition discriminate.
      * split; reflexivity.
      * split; [reflexivity|]. split; [reflexivity|]. split; discriminate.
      * split; [reflexivity|]. split; [|reflexivity]. apply NoDir. intros r H. cbn in H. intuition discriminate.
  - split.
    + repeat (constructor; [|repeat (constructor; [reflexivity|]); constructor]). constructor.
    + intros d Hd. destruct Hd as [<-|[<-|[<-|[<-|[<-|[<-|[<-|[]]]]]]]]; (split; [discriminate|intros Q; vm_compute in Q; discriminate]).
  - split; [|split].
    + intros q f L. apply ckids_lives in L. destruct L as [[_ E]|[[-> E]|[[-> E]|[[-> E]|[-> E]]]]]; try discriminate E; injection E as ->; eexists; (split; reflexivity).
    + intros q m id E. apply snap_in in E. destruct E as [E|[E|[E|[E|[]]]]]; injection E as <- _ _; eexists.
      * eapply (lives_below ckids (path "d")); [left; reflexivity|]. constructor. left. reflexivity.
      * constructor. right. left. reflexivity.
      * constructor. right. right. left. reflexivity.
      * constructor. right. right. right. left. reflexivity.
    + intros q i g sub L. apply ckids_lives in L. destruct L as [[-> E]|[[_ E]|[[_ E]|[[_ E]|[_ E]]]]]; try discriminate E. exists (path "x"). vm_compute. discriminate.
  - intros d f Hd _. left. destruct Hd as [<-|[<-|[<-|[<-|[<-|[<-|[<-|[]]]]]]]]; reflexivity.
  - repeat split.
  - intros q f e _ E. discriminate.
  - intros d i g sub Hd L q n c Lq Hc [v E]. apply ckids_lives in L. destruct L as [[E1 _]|[[_ X]|[[_ X]|[[_ X]|[_ X]]]]]; try discriminate X. rewrite E1 in E.
    apply ckids_lives in Lq. unfold slash in Hc. destruct Lq as [[-> _]|[[-> _]|[[-> _]|[[-> _]|[-> _]]]]]; cbn in E; try discriminate E. injection E as E _. lia.
Qed.

(** [no_shadows] is needed: with "a.b" beside it, the directory "a" that becomes a file is not found
    by the walk; the checkout reports success, "a/x" is gone and "a" is not there. Force does not
    help. *)
Theorem C48_shadow_refuted : forall force, exists ds kids t fs,
  let st := mkstrategy false force force false false false false false false true false in
  describes ds (snap [(path "a.b", (MODE_BLOB, bs "b")); (path "a/x", (MODE_BLOB, bs "x"))]) t /\
  t (path "a") = Some (MODE_BLOB, bs "new") /\
  run st ds kids = Some (Done fs) /\ find_file (path "a") fs = None /\ find_file (path "a/x") (files (workdir kids)) <> None.
Proof.
  intros force. exists [D Typechange "a" MODE_TREE "" MODE_BLOB "new"; D Unmodified "a.b" MODE_BLOB "b" MODE_BLOB "b"; D Deleted "a/x" MODE_BLOB "x" 0 ""],
    [(path "a.b", fl "b"); (path "a", dir [(path "x", fl "x")])],
    (snap [(path "a", (MODE_BLOB, bs "new")); (path "a.b", (MODE_BLOB, bs "b"))]). eexists. cbn zeta. split; [|split; [reflexivity|split; [destruct force; vm_compute; reflexivity|split; [vm_compute; reflexivity|vm_compute; discriminate]]]].
  split.
  - intros q [H|H]; apply snap_some in H; cbn in H;
      intuition (subst q; first [eexists; split; [left; reflexivity|reflexivity]|eexists; split; [right; left; reflexivity|reflexivity]|eexists; split; [right; right; left; reflexivity|reflexivity]]).
  - intros d [<-|[<-|[<-|[]]]]; cbn zeta.
    + right. left. split; [reflexivity|]. split; [reflexivity|]. split; [exists (path "x"); vm_compute; discriminate|reflexivity].
    + split; reflexivity.
    + split; [reflexivity|]. split; [reflexivity|]. intros [r H]. apply snap_some in H. cbn in H. intuition discriminate.
Qed.

(** Cleanness is needed too. When the user has deleted the file "a" and the target has a directory
    there, the checkout fails: it tries to write the directory as a file. When the user has deleted
    the directory "a" and the target has a file there, even a forced checkout does not write it. *)
Theorem C48_missing_file_refuted : exists fs,
  run dflt [D Typechange "a" MODE_BLOB "old" MODE_TREE ""; D Added "a/x" 0 "" MODE_BLOB "new"] [] = Some (Failed fs).
Proof. eexists. vm_compute. reflexivity. Qed.
Theorem C48_missing_dir_refuted : 
  run (mkstrategy false true true false false false false false false true false)
    [D Typechange "a" MODE_TREE "" MODE_BLOB "new"; D Deleted "a/x" MODE_BLOB "old" 0 ""] [] = Some (Done []).
Proof. vm_compute. reflexivity. Qed.
