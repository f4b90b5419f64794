(** C30: no accepted path can address the .git directory. *)
From Verif Require Import Base Str WildModel Utf8Model Utf8Spec Utf8Props PathModel PathSpec PathProofs PathMain.

(** The protections in force: NTFS unless switched off, HFS+ if switched on. *)
Definition ntfs_protected (repo : option config) : Prop :=
  match repo with None => True | Some c => c_ntfs c = Some true end.
Definition hfs_protected (repo : option config) : Prop :=
  match repo with None => False | Some c => c_hfs c = Some true end.

Lemma first_slash p : (~ In 47 p) \/ exists a w, p = a ++ 47 :: w /\ ~ In 47 a.
Proof.
  induction p as [|x p IH]; [left; intros []|]. destruct (Z.eq_dec x 47) as [->|N].
  - right. exists [], p. split; [reflexivity|intros []].
  - destruct IH as [H|(a & w & -> & H)]; [left; intros [X|X]; auto|]. right. exists (x :: a), w. split; [reflexivity|]. intros [X|X]; auto.
Qed.

Lemma all_components_split P : forall p, all_components (fun _ c => P c) p <-> Forall P (components p).
Proof.
  intros p. remember (length p) as n eqn:En. revert p En. induction n as [n IH] using lt_wf_ind. intros p ->.
  destruct (first_slash p) as [H|(a & w & -> & H)].
  - unfold components. rewrite all_end, split_nosep by exact H. split; [auto|intros F; inv F; assumption].
  - unfold components. rewrite all_slash, split_app by exact H. rewrite (IH (length w)) by (rewrite ?app_length; cbn; lia). unfold components.
    split; [intros [X Y]; constructor; assumption|intros F; inv F; auto].
Qed.

Lemma all_components_impl (P Q : list Z -> list Z -> Prop) p : (forall s c, P s c -> Q s c) -> all_components P p -> all_components Q p.
Proof. intros H A pre s E B. apply H, (A pre); assumption. Qed.

(** The flags after the upgrade. *)
Definition eff (repo : option config) (flags : Z) : Z :=
  let flags := if has flags F_DOT_GIT then dotgit_flags repo flags else flags in
  if has flags F_LONG_PATHS then Z.clearbit flags F_LONG_PATHS else flags.

Lemma dotgit_flags_bit repo flags k : 0 <= k -> k <> F_LITERAL -> k <> F_HFS -> k <> F_NTFS ->
  Z.testbit (dotgit_flags repo flags) k = Z.testbit flags k.
Proof.
  intros Hk N1 N2 N3. assert (S : forall f b, 0 <= b -> k <> b -> Z.testbit (Z.setbit f b) k = Z.testbit f k).
  { intros f b Hb Hn. rewrite Z.setbit_eqb by exact Hb. destruct (Z.eqb_spec b k); [congruence|reflexivity]. }
  unfold dotgit_flags. destruct repo as [[[h|] [n|]]|]; cbn [c_hfs c_ntfs];
    repeat match goal with |- context [if ?b then _ else _] => destruct b end; rewrite ?S by (first [assumption|discriminate]); reflexivity.
Qed.
Lemma setbit_same f b : 0 <= b -> Z.testbit (Z.setbit f b) b = true.
Proof. intros H. rewrite Z.setbit_eqb by exact H. rewrite Z.eqb_refl. reflexivity. Qed.
Lemma setbit_other f b k : 0 <= b -> k <> b -> Z.testbit (Z.setbit f b) k = Z.testbit f k.
Proof. intros Hb Hn. rewrite Z.setbit_eqb by exact Hb. destruct (Z.eqb_spec b k); [congruence|reflexivity]. Qed.
Ltac bitsimp := repeat first [rewrite setbit_same by discriminate | rewrite setbit_other by discriminate].
Lemma dotgit_literal repo flags : Z.testbit (dotgit_flags repo flags) F_LITERAL = true.
Proof.
  unfold dotgit_flags. destruct repo as [[[[]|] [[]|]]|]; cbn [c_hfs c_ntfs negb andb]; bitsimp; rewrite ?setbit_same by discriminate; reflexivity.
Qed.
Lemma dotgit_ntfs_bit repo flags : Z.testbit flags F_NTFS = false -> (Z.testbit (dotgit_flags repo flags) F_NTFS = true <-> ntfs_protected repo).
Proof.
  intros H. unfold dotgit_flags, ntfs_protected.
  destruct repo as [[[[]|] [[]|]]|]; cbn [c_hfs c_ntfs negb andb]; bitsimp; rewrite ?H; split; intros; try congruence; try exact I.
Qed.
Lemma dotgit_hfs_bit repo flags : Z.testbit flags F_HFS = false -> (Z.testbit (dotgit_flags repo flags) F_HFS = true <-> hfs_protected repo).
Proof.
  intros H. unfold dotgit_flags, hfs_protected.
  destruct repo as [[[[]|] [[]|]]|]; cbn [c_hfs c_ntfs negb andb]; bitsimp; rewrite ?H; split; intros; try congruence; try exact I; try contradiction.
Qed.

Lemma dotgit_nonzero repo flags : dotgit_flags repo flags <> 0.
Proof. intros E. assert (H := dotgit_literal repo flags). rewrite E, Z.testbit_0_l in H. discriminate. Qed.

(** The three flag words the library uses; each asks for the .git checks. *)
Definition standard (flags : Z) : Prop := flags = WORKDIR_DEFAULTS \/ flags = INDEX_DEFAULTS \/ flags = TREE_FLAGS.

Lemma standard_eff repo flags : standard flags -> eff repo flags = dotgit_flags repo flags.
Proof.
  intros H. unfold eff, has. assert (D : Z.testbit flags F_DOT_GIT = true) by (destruct H as [->|[->| ->]]; reflexivity). rewrite D.
  rewrite dotgit_flags_bit by discriminate. assert (L : Z.testbit flags F_LONG_PATHS = false) by (destruct H as [->|[->| ->]]; reflexivity). rewrite L. reflexivity.
Qed.

Lemma valid_spec repo p j size link flags : standard flags -> cstr p -> bytes j -> (size = None \/ size = Some (length p)) ->
  exists r, path_str_is_valid repo (p ++ 0 :: j) size link flags = Ok r /\
    (r = true <-> Forall (char_ok (dotgit_flags repo flags)) p /\ all_components (fun s c => ~ fault (dotgit_flags repo flags) link s c) p).
Proof.
  intros Hf Hp Hj Hz. unfold path_str_is_valid. fold (eff repo flags). rewrite standard_eff by exact Hf.
  unfold str_is_valid_ext. destruct (Z.eqb_spec (dotgit_flags repo flags) 0) as [E|_]; [destruct (dotgit_nonzero _ _ E)|].
  apply (path_loop_spec (dotgit_flags repo flags) link j Hj p [] size Hp); [intros []|exact Hz].
Qed.

(** Every check terminates without reading past the terminating NUL, whatever
    the path. *)
Theorem C30_total repo p j size link flags : standard flags -> cstr p -> bytes j -> (size = None \/ size = Some (length p)) ->
  exists r, path_str_is_valid repo (p ++ 0 :: j) size link flags = Ok r.
Proof. intros. destruct (valid_spec repo p j size link flags) as (r & E & _); try assumption. eauto. Qed.

Lemma lower_ascii c base : Forall (fun x => 0 < x < 128) base -> lower c = base -> Forall (fun x => 0 < x < 128) c.
Proof.
  intros F E. subst base. induction c as [|x c IH]; [constructor|]. inv F. constructor; [|apply IH; assumption].
  unfold lower1 in H1. destruct ((65 <=? x) && (x <=? 90)) eqn:X; lia.
Qed.
Lemma ascii_alias c : Forall (fun x => 0 < x < 128) c -> hfs_alias (lower c) c.
Proof.
  intros F. exists c. induction F as [|x c Hx F (A & E & V)].
  - split; [constructor|]. split; [reflexivity|constructor].
  - split; [constructor; [|exact A]; unfold accepted, scalar, noncharacter; lia|]. split.
    + cbn [map concat]. unfold encode_cp at 1. destruct (Z.ltb_spec x 128); [|lia]. cbn. f_equal. exact E.
    + cbn [lower map]. apply vis_keep; [unfold ignorable; lia|exact V].
Qed.

Lemma small_dotgit : Forall (fun x => 0 < x < 128) (bs ".git").
Proof. repeat constructor; reflexivity. Qed.

(** What an unfaulted component is not. *)
Lemma no_fault_dotgit repo flags link s c : standard flags -> ~ fault (dotgit_flags repo flags) link s c ->
  c <> bs "." /\ c <> bs ".." /\ lower c <> bs ".git" /\
  (ntfs_protected repo -> ~ ntfs_dotgit c) /\ (hfs_protected repo -> ~ hfs_alias (bs ".git") c).
Proof.
  intros Hs N. set (f := dotgit_flags repo flags) in *.
  assert (T : on f F_TRAVERSAL). { unfold on, f. rewrite dotgit_flags_bit by discriminate. destruct Hs as [->|[->| ->]]; reflexivity. }
  assert (BN : on f F_NTFS <-> ntfs_protected repo) by (apply dotgit_ntfs_bit; destruct Hs as [->|[->| ->]]; reflexivity).
  assert (BH : on f F_HFS <-> hfs_protected repo) by (apply dotgit_hfs_bit; destruct Hs as [->|[->| ->]]; reflexivity).
  assert (BL : on f F_LITERAL) by apply dotgit_literal.
  assert (N1 : c <> bs ".") by (intros E; apply N; left; right; left; tauto).
  assert (N2 : c <> bs "..") by (intros E; apply N; left; right; left; tauto).
  assert (N3 : on f F_NTFS -> ~ ntfs_dotgit c) by (intros E X; apply N; right; right; left; tauto).
  assert (N4 : on f F_HFS -> ~ hfs_alias (bs ".git") c).
  { intros E X. apply N; right; left. split; [exact E|]. left. apply alias_seen; [apply small_dotgit|exact X]. }
  assert (N5 : lower c <> bs ".git").
  { intros E. destruct (Z.testbit f F_NTFS) eqn:EN.
    - apply (N3 EN). left. exists c, []. rewrite app_nil_r. split; [reflexivity|]. split; [exact E|]. left. constructor.
    - destruct (Z.testbit f F_HFS) eqn:EH.
      + apply (N4 EH). rewrite <- E. apply ascii_alias. apply (lower_ascii c _ small_dotgit E).
      + apply N. right. right. right. unfold on. rewrite EN, EH. repeat (split; [first [discriminate|exact BL]|]). left. exact E. }
  rewrite <- BN, <- BH. auto.
Qed.

Lemma accepted_dotgit repo p j size link flags : standard flags -> cstr p -> bytes j -> (size = None \/ size = Some (length p)) ->
  path_str_is_valid repo (p ++ 0 :: j) size link flags = Ok true ->
  forall c, In c (components p) ->
    c <> bs "." /\ c <> bs ".." /\ lower c <> bs ".git" /\
    (ntfs_protected repo -> ~ ntfs_dotgit c) /\ (hfs_protected repo -> ~ hfs_alias (bs ".git") c).
Proof.
  intros Hf Hp Hj Hz E. destruct (valid_spec repo p j size link flags Hf Hp Hj Hz) as (r & E' & R). rewrite E in E'. injection E' as <-.
  destruct (proj1 R eq_refl) as [_ A]. apply (all_components_impl _ (fun _ c => c <> bs "." /\ c <> bs ".." /\ lower c <> bs ".git" /\
    (ntfs_protected repo -> ~ ntfs_dotgit c) /\ (hfs_protected repo -> ~ hfs_alias (bs ".git") c))) in A.
  - apply all_components_split in A. rewrite Forall_forall in A. exact A.
  - intros s c N. eapply no_fault_dotgit; eassumption.
Qed.

(** A path accepted for writing into the working directory has no component
    that is empty, ".", "..", ".git" in any case, or a name NTFS or (when
    protected) HFS+ takes for .git; for all paths and settings. *)
Theorem C30_workdir repo p j link : cstr p -> bytes j ->
  path_is_valid repo (p ++ 0 :: j) link WORKDIR_DEFAULTS = Ok true ->
  forall c, In c (components p) ->
    c <> [] /\ c <> bs "." /\ c <> bs ".." /\ lower c <> bs ".git" /\
    (ntfs_protected repo -> ~ ntfs_dotgit c) /\ (hfs_protected repo -> ~ hfs_alias (bs ".git") c).
Proof.
  intros Hp Hj E c Hc. assert (Hf : standard WORKDIR_DEFAULTS) by (left; reflexivity). split; [|exact (accepted_dotgit repo p j None link _ Hf Hp Hj (or_introl eq_refl) E c Hc)].
  unfold path_is_valid in E. destruct (valid_spec repo p j None link _ Hf Hp Hj (or_introl eq_refl)) as (r & E' & R). rewrite E in E'. injection E' as <-.
  destruct (proj1 R eq_refl) as [_ A]. apply (all_components_impl _ (fun _ c => c <> [])) in A.
  - apply all_components_split in A. rewrite Forall_forall in A. apply A. exact Hc.
  - intros s c' N X. apply N. left. left. split; [|exact X]. unfold on. rewrite dotgit_flags_bit by discriminate. reflexivity.
Qed.

(** The same for a path accepted into the index. *)
Theorem C30_index repo p j link : cstr p -> bytes j ->
  path_is_valid repo (p ++ 0 :: j) link INDEX_DEFAULTS = Ok true ->
  forall c, In c (components p) ->
    c <> bs "." /\ c <> bs ".." /\ lower c <> bs ".git" /\
    (ntfs_protected repo -> ~ ntfs_dotgit c) /\ (hfs_protected repo -> ~ hfs_alias (bs ".git") c).
Proof. intros Hp Hj E. exact (accepted_dotgit repo p j None link _ (or_intror (or_introl eq_refl)) Hp Hj (or_introl eq_refl) E). Qed.

(** ... and for a name accepted into a tree, which moreover is one component. *)
Theorem C30_tree repo p j : cstr p -> bytes j ->
  path_is_valid repo (p ++ 0 :: j) false TREE_FLAGS = Ok true ->
  ~ In 47 p /\ p <> bs "." /\ p <> bs ".." /\ lower p <> bs ".git" /\
  (ntfs_protected repo -> ~ ntfs_dotgit p) /\ (hfs_protected repo -> ~ hfs_alias (bs ".git") p).
Proof.
  intros Hp Hj E. assert (Hf : standard TREE_FLAGS) by (right; right; reflexivity).
  assert (NS : ~ In 47 p).
  { unfold path_is_valid in E. destruct (valid_spec repo p j None false _ Hf Hp Hj (or_introl eq_refl)) as (r & E' & R). rewrite E in E'. injection E' as <-.
    destruct (proj1 R eq_refl) as [F _]. rewrite Forall_forall in F. intros X. apply F in X. destruct X as (_ & X & _). apply X.
    split; [|reflexivity]. unfold on. rewrite dotgit_flags_bit by discriminate. reflexivity. }
  split; [exact NS|]. refine (accepted_dotgit repo p j None false _ Hf Hp Hj (or_introl eq_refl) E p _).
  unfold components. rewrite split_nosep by exact NS. left. reflexivity.
Qed.

(** A symbolic link accepted for checkout is not called .gitmodules on any of
    the protected file systems. *)
Theorem C30_symlink_gitmodules repo p j d c : cstr p -> bytes j ->
  path_is_valid repo (p ++ 0 :: j) true WORKDIR_DEFAULTS = Ok true ->
  (p = c \/ p = d ++ 47 :: c) -> ~ In 47 c ->
  lower c <> bs ".gitmodules" /\
  (ntfs_protected repo -> ~ ntfs_gitfile (bs "gitmodules") (bs "gi7eba") c) /\
  (hfs_protected repo -> ~ hfs_alias (bs ".gitmodules") c).
Proof.
  intros Hp Hj E Hpc Hc. assert (Hf : standard WORKDIR_DEFAULTS) by (left; reflexivity).
  unfold path_is_valid in E. destruct (valid_spec repo p j None true _ Hf Hp Hj (or_introl eq_refl)) as (r & E' & R). rewrite E in E'. injection E' as <-.
  destruct (proj1 R eq_refl) as [_ A]. clear R E. set (f := dotgit_flags repo WORKDIR_DEFAULTS) in *.
  assert (N : ~ fault f true c c).
  { rewrite <- (component_end c Hc) at 2. destruct Hpc as [->| ->].
    - apply (A []); [reflexivity|left; reflexivity].
    - apply (A (d ++ [47])); [rewrite <- app_assoc; reflexivity|right; exists d; reflexivity]. }
  assert (BN : on f F_NTFS <-> ntfs_protected repo) by (apply dotgit_ntfs_bit; reflexivity).
  assert (BH : on f F_HFS <-> hfs_protected repo) by (apply dotgit_hfs_bit; reflexivity).
  assert (BL : on f F_LITERAL) by apply dotgit_literal.
  assert (SM : Forall (fun x => 0 < x < 128) (bs ".gitmodules")) by (repeat constructor; reflexivity).
  assert (N3 : on f F_NTFS -> ~ ntfs_gitfile (bs "gitmodules") (bs "gi7eba") c) by (intros E X; apply N; right; right; left; tauto).
  assert (N4 : on f F_HFS -> ~ hfs_alias (bs ".gitmodules") c).
  { intros E X. apply N; right; left. split; [exact E|]. right. split; [reflexivity|]. apply alias_seen; [exact SM|exact X]. }
  split; [|rewrite <- BN, <- BH; auto]. intros E. destruct (Z.testbit f F_NTFS) eqn:EN.
  - apply (N3 EN). exists c, []. rewrite app_nil_r. split; [reflexivity|]. split; [exists [], []; repeat split; auto|]. left. exact E.
  - destruct (Z.testbit f F_HFS) eqn:EH.
    + apply (N4 EH). rewrite <- E. apply ascii_alias. apply (lower_ascii c _ SM E).
    + apply N. right. right. right. unfold on. rewrite EN, EH. repeat (split; [first [discriminate|exact BL]|]). right. split; [reflexivity|].
      split; [rewrite <- lower_length, E; cbn; lia|]. exists []. rewrite app_nil_r. symmetry. exact E.
Qed.

(** With the default settings nothing else is rejected: a path is accepted for
    checkout exactly when every component is harmless. *)
Theorem C30_default_exact p j : cstr p -> bytes j ->
  (path_is_valid None (p ++ 0 :: j) false WORKDIR_DEFAULTS = Ok true <->
   forall c, In c (components p) -> c <> [] /\ c <> bs "." /\ c <> bs ".." /\ ~ ntfs_dotgit c).
Proof.
  intros Hp Hj. assert (Hf : standard WORKDIR_DEFAULTS) by (left; reflexivity).
  split. { intros E c Hc. destruct (C30_workdir None p j false Hp Hj E c Hc) as (A & B & C & _ & D & _). repeat split; auto. apply D. exact I. }
  intros A. unfold path_is_valid. destruct (valid_spec None p j None false _ Hf Hp Hj (or_introl eq_refl)) as (r & -> & R). f_equal. apply R. split.
  - apply Forall_forall. intros x _. unfold char_ok, on. rewrite !dotgit_flags_bit by discriminate. repeat split; intros [X _]; discriminate X.
  - apply (all_components_impl (fun _ c => c <> [] /\ c <> bs "." /\ c <> bs ".." /\ ~ ntfs_dotgit c)).
    + intros s c (N0 & N1 & N2 & N3) [F|F].
      * unfold fault_fs, on in F. rewrite !dotgit_flags_bit in F by discriminate.
        change (Z.testbit WORKDIR_DEFAULTS F_TRAILING_DOT) with false in F; change (Z.testbit WORKDIR_DEFAULTS F_TRAILING_SPACE) with false in F;
        change (Z.testbit WORKDIR_DEFAULTS F_TRAILING_COLON) with false in F; change (Z.testbit WORKDIR_DEFAULTS F_DOS_PATHS) with false in F.
        destruct F as [[_ F]|[[_ [F|F]]|[[F _]|[[F _]|[[F _]|[F _]]]]]]; try discriminate F; contradiction.
      * destruct F as [[F _]|[[_ [F|[F _]]]|(_ & F & _)]]; [discriminate F|contradiction|discriminate F|]. apply F. reflexivity.
    + apply all_components_split. apply Forall_forall. exact A.
Qed.

(** A NUL inside a path of stated length is never accepted. *)
Theorem C30_embedded_nul repo p j n link flags : standard flags -> cstr p -> bytes j -> (length p < n)%nat ->
  path_str_is_valid repo (p ++ 0 :: j) (Some n) link flags = Ok false.
Proof.
  intros Hf Hp Hj Hn. unfold path_str_is_valid. fold (eff repo flags). rewrite standard_eff by exact Hf. generalize (dotgit_nonzero repo flags).
  generalize (dotgit_flags repo flags). intros f Hnz. unfold str_is_valid_ext. destruct (Z.eqb_spec f 0); [contradiction|].
  assert (G : forall w a n, cstr (a ++ w) -> ~ In 47 a -> (length w < n)%nat -> path_loop f link (w ++ 0 :: j) (a ++ w ++ 0 :: j) (length a) (Some n) = Ok false).
  { clear -Hj. induction w as [|c w IH]; intros a n Hs Ha Hn; (destruct n as [|n]; [cbn in Hn; lia|]); cbn [app path_loop]; [reflexivity|].
    assert (Hc : 0 < c < 256) by (apply Forall_app in Hs as [_ Hs]; inv Hs; assumption).
    destruct (Z.eqb_spec c 0); [lia|]. cbn [orb]. destruct (validate_char c f); cbn [negb]; [|reflexivity].
    replace (S n - 1)%nat with n by lia. destruct (Z.eqb_spec c 47) as [->|N].
    - change (47 :: w ++ 0 :: j) with ((47 :: w) ++ 0 :: j). rewrite app_assoc.
      destruct (check_component_spec (a ++ 47 :: w) j (length a) f link Hs Hj) as (r & -> & _).
      { split; [rewrite app_length; lia|]. rewrite (proj1 (firstn_len_app a (47 :: w) _ eq_refl)). split; [exact Ha|]. left. rewrite app_nth2, Nat.sub_diag by lia. reflexivity. }
      cbn [bindr]. destruct r; [|reflexivity].
      apply (IH [] n); [apply Forall_app in Hs as [_ Hs]; inv Hs; assumption|intros []|cbn in Hn; lia].
    - specialize (IH (a ++ [c]) n). rewrite <- !app_assoc, app_length in IH. cbn [app length] in IH. rewrite Nat.add_1_r in IH. apply IH; [exact Hs| |cbn in Hn; lia].
      intros X. apply in_app_or in X. destruct X as [X|[X|[]]]; auto. }
  apply (G p [] n Hp); [intros []|exact Hn].
Qed.

(** git_path_is_gitfile on a file name: exact for NTFS; for HFS+ every true alias
    is recognised. *)
Theorem C30_gitfile_ntfs k file hash s j : nth_error gitfiles k = Some (file, hash) -> cstr s -> ~ In 47 s ->
  exists r, is_gitfile (s ++ 0 :: j) (length s) (Z.of_nat k) 1 = Ok r /\ (r = true <-> ntfs_gitfile file hash s).
Proof.
  intros Hk Hs Hn. assert (Lk : (k < 3)%nat) by (assert (X : nth_error gitfiles k <> None) by congruence; apply nth_error_Some in X; exact X).
  assert (G : good_gitfile file hash). { assert (F := good_gitfiles). rewrite Forall_forall in F. apply nth_error_In in Hk. apply F in Hk. exact Hk. }
  unfold is_gitfile. assert (B : (0 <=? Z.of_nat k) && (Z.of_nat k <? 3) = true) by lia. rewrite B, Nat2Z.id, (nth_error_nth _ _ _ Hk).
  change (1 =? 0) with false. change (1 =? 1) with true. cbn iota.
  destruct (dotgit_ntfs_generic_spec s j (length s) file hash Hs) as (r & -> & R); [|exact G|].
  { split; [lia|]. rewrite firstn_all. split; [exact Hn|]. right. apply nth_overflow. lia. }
  cbn [bindr]. exists (negb r). split; [reflexivity|]. rewrite negb_true_iff. exact R.
Qed.

Theorem C30_gitfile_hfs k file hash s j fs : nth_error gitfiles k = Some (file, hash) -> cstr s -> bytes j -> ~ In 47 s -> (fs = 0 \/ fs = 2) ->
  hfs_alias (46 :: file) s -> is_gitfile (s ++ 0 :: j) (length s) (Z.of_nat k) fs = Ok true.
Proof.
  intros Hk Hs Hj Hn Hfs Ha. assert (Lk : (k < 3)%nat) by (assert (X : nth_error gitfiles k <> None) by congruence; apply nth_error_Some in X; exact X).
  assert (G : good_gitfile file hash). { assert (F := good_gitfiles). rewrite Forall_forall in F. apply nth_error_In in Hk. apply F in Hk. exact Hk. }
  assert (SF : Forall (fun x => 0 < x < 128) file) by (destruct G as (_ & _ & _ & F & _); revert F; apply Forall_impl; intros; lia).
  unfold is_gitfile. assert (B : (0 <=? Z.of_nat k) && (Z.of_nat k <? 3) = true) by lia. rewrite B, Nat2Z.id, (nth_error_nth _ _ _ Hk).
  assert (Bj : bytes (0 :: j)) by (constructor; [unfold is_byte; lia|exact Hj]).
  destruct (dotgit_hfs_spec s (0 :: j) (length s) file (cstr_bytes s Hs) Bj (le_n _) SF) as (r & E & R). rewrite firstn_all in R.
  assert (r = false) by (apply R, alias_seen; [constructor; [lia|exact SF]|exact Ha]). subst r.
  destruct Hfs as [->| ->].
  - change (0 =? 0) with true. cbn iota.
    destruct (dotgit_ntfs_generic_spec s j (length s) file hash Hs) as (r & -> & _); [|exact G|].
    { split; [lia|]. rewrite firstn_all. split; [exact Hn|]. right. apply nth_overflow. lia. }
    cbn [bindr]. destruct r; [|reflexivity]. rewrite E. reflexivity.
  - change (2 =? 0) with false. change (2 =? 1) with false. change (2 =? 2) with true. cbn iota. rewrite E. reflexivity.
Qed.

(** *** Limits *)

(** The index accepts empty components. *)
Theorem C30_index_empty_refuted : path_is_valid None (bs "a//b" ++ [0]) false INDEX_DEFAULTS = Ok true /\ path_is_valid None [0] false INDEX_DEFAULTS = Ok true.
Proof. split; vm_compute; reflexivity. Qed.

(** After dots or spaces a stream or directory separator is not looked for:
    these NTFS names of .git are accepted. *)
Definition ntfs_elided (c : list Z) : Prop := (* .git, elided dots and spaces, separator *)
  exists b u x t, c = b ++ u ++ x :: t /\ lower b = bs ".git" /\ Forall dot_or_space u /\ (x = 58 \/ x = 92).
Theorem C30_ntfs_elided_refuted : exists c, ntfs_elided c /\ ~ In 47 c /\ path_is_valid None (c ++ [0]) false WORKDIR_DEFAULTS = Ok true.
Proof.
  exists (bs ".git .\config"). split; [|split; [cbn; intuition discriminate|vm_compute; reflexivity]].
  exists (bs ".git"), (bs " ."), 92, (bs "config"). split; [reflexivity|]. split; [reflexivity|]. split; [|right; reflexivity].
  apply Forall_cons; [right; reflexivity|]. apply Forall_cons; [left; reflexivity|]. apply Forall_nil.
Qed.

(** Code points are cut to a byte: ".ŧit" is refused under HFS+ protection
    although it is no alias of .git. *)
Theorem C30_hfs_exact_refuted : exists c, ~ hfs_alias (bs ".git") c /\ ~ In 47 c /\
  path_is_valid (Some {| c_hfs := Some true; c_ntfs := Some true |}) (c ++ [0]) false WORKDIR_DEFAULTS = Ok false.
Proof.
  exists (concat (map encode_cp [46; 359; 105; 116])). split; [|split; [cbn; intuition discriminate|vm_compute; reflexivity]].
  intros (us & A & E & V).
  assert (B : forall us', Forall accepted us' -> bytes (concat (map encode_cp us'))) by (intros; apply (encs_bytes us'); assumption).
  assert (Ac : Forall accepted [46; 359; 105; 116]) by (repeat constructor; unfold accepted, scalar, noncharacter; lia).
  assert (Inj : forall us1 us2, Forall accepted us1 -> Forall accepted us2 -> concat (map encode_cp us1) = concat (map encode_cp us2) -> us1 = us2).
  { clear. induction us1 as [|u us1 IH]; intros [|v us2] A1 A2 E; [reflexivity| | |].
    - inv A2. exfalso. exact (enc_nonnil v _ H1 E).
    - inv A1. exfalso. exact (enc_nonnil u _ H1 (eq_sym E)).
    - inv A1. inv A2. cbn in E. apply encode_app_inj in E; try assumption; try (apply (encs_bytes us1); assumption); try (apply (encs_bytes us2); assumption).
      destruct E as [-> E]. f_equal. apply IH; assumption. }
  apply Inj in E; [|exact Ac|exact A]. subst us. inversion V as [|u0 us0 vs0 G V1|u0 us0 vs0 G V1]; subst; [unfold ignorable in *; lia|].
  inversion V1 as [|u1 us1 vs1 G1 V2|u1 us1 vs1 G1 V2]; subst; unfold ignorable in *; lia.
Qed.

(** *** Non-vacuity *)
Example C30_ok_example : path_is_valid None (bs "src/.github/git~2/a.git" ++ [0]) true WORKDIR_DEFAULTS = Ok true.
Proof. vm_compute. reflexivity. Qed.
Example C30_bad_example :
  path_is_valid None (bs "src/.GiT/x" ++ [0]) false WORKDIR_DEFAULTS = Ok false /\
  path_is_valid None (bs "a/git~1 . /x" ++ [0]) false INDEX_DEFAULTS = Ok false /\
  path_is_valid None (bs ".gIT::$INDEX_ALLOCATION/x" ++ [0]) false WORKDIR_DEFAULTS = Ok false /\
  path_is_valid None (bs "a/../b" ++ [0]) false WORKDIR_DEFAULTS = Ok false /\
  path_is_valid None (bs "a/GI7EB~12" ++ [0]) true WORKDIR_DEFAULTS = Ok false /\
  path_is_valid (Some {| c_hfs := Some true; c_ntfs := Some false |}) ([46; 103; 226; 128; 140; 73; 116] ++ [0]) false WORKDIR_DEFAULTS = Ok false.
Proof. repeat split; vm_compute; reflexivity. Qed.
