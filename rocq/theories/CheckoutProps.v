(** C29: a safe checkout does not destroy unsaved work. *)
From Coq Require Import ZArith List Bool Lia Sorted String.
From Verif Require Import Base CStr Str CheckoutModel CheckoutSpec CheckoutProofs CheckoutMain.
Import ListNotations.
Local Open Scope Z_scope.

Lemma chosen_keeps kids st ix sm cf ds d a q f :
  wf kids -> safe st -> ignored_ok st kids -> index_honest ix kids -> plain_typechanges ds kids -> no_blockers ds kids ->
  In d ds -> d_path d <> [] /\ last (d_path d) 0 <> slash ->
  lives kids q (NFile f) -> f_mode f <> MODE_COMMIT -> f_id f <> None -> ~ saved st ds q f ->
  chosen kids st ix sm cf d a ->
  (a_rm a = true -> at_or_below (d_path d) q = false /\ ~ starts_with (q ++ [slash]) (d_path d)) /\ (a_up a = true -> q <> d_path d).
Proof.
  intros W S1 G HI T B Hd Hp Lq NC NI NS C.
  assert (Blk : a_rm a = true -> ~ starts_with (q ++ [slash]) (d_path d)).
  { intros H Sw. destruct (B d q f Hd Lq Sw) as (Ad & _).
    assert (N0 : forall n, ~ lives kids (d_path d) n).
    { intros n Ln. destruct Sw as [v Ev]. rewrite Ev, <- app_assoc in Ln.
      destruct (lives_below_inv _ _ _ W Ln q v eq_refl) as (i & g & sub & L1 & _).
      pose proof (lives_fun _ _ _ Lq W _ L1) as X. discriminate. }
    destruct C as [(f0 & L0 & _)|[(i & g & sub & L0 & _)|(_ & E)]]; [destruct (N0 _ L0)|destruct (N0 _ L0)|].
    subst a. unfold action_no_wd, action_common in H. rewrite Ad in H. destruct (s_none st); [discriminate|].
    destruct (s_update_only st); cbn in H; destruct (d_nmode d =? MODE_COMMIT); discriminate. }
  enough (X : (a_rm a = true -> at_or_below (d_path d) q = false) /\ (a_up a = true -> q <> d_path d)).
  { destruct X as [X1 X2]. split; [|exact X2]. intros H. split; [apply X1|apply Blk]; exact H. }
  assert (Below : at_or_below (d_path d) q = true -> q = d_path d \/ exists i g sub r, lives kids (d_path d) (NDir i g sub) /\ lives sub r (NFile f)).
  { intros Q. unfold at_or_below in Q. apply orb_prop in Q. destruct Q as [Q|Q]; [left; apply leqb_spec in Q; congruence|right].
    apply prefixb_spec in Q. destruct Q as [r ->]. rewrite <- app_assoc in Lq. cbn [app] in Lq.
    destruct (lives_below_inv _ _ _ W Lq _ _ eq_refl) as (i & g & sub & L1 & L2). exists i, g, sub, r. split; assumption. }
  destruct C as [(f0 & L0 & E)|[(i & g & sub & L0 & E)|(N0 & E)]].
  - (* a file at the path *)
    assert (Tm : f_mode f <> MODE_TREE).
    { clear -W Lq. remember (NFile f) as n eqn:En. revert W. induction Lq as [kids name n H|kids name i g sub q n H L IH]; intros W; subst n; inversion W; subst; eauto. }
    assert (Same : q = d_path d -> a_rm a = true \/ a_up a = true -> False).
    { intros Q H. subst q. pose proof (lives_fun _ _ _ Lq W _ L0) as X. injection X as <-. subst a.
      destruct (with_wd_safe st ix (sm (d_path d)) (cf (d_path d)) d (d_path d) f S1 NC Tm H) as [M|[M K]].
      - apply NS. exists d. split; [exact Hd|]. split; [reflexivity|]. apply (not_modified st ix (sm (d_path d)) d (d_path d) f kids); assumption.
      - destruct G as [G|G]; [congruence|]. specialize (G _ _ Lq). cbn in G. congruence. }
    split.
    + intros H. destruct (at_or_below (d_path d) q) eqn:Q; [|reflexivity]. exfalso.
      destruct (Below eq_refl) as [Eq|(i & g & sub & r & L1 & L2)]; [apply Same; auto|].
      pose proof (lives_fun _ _ _ L0 W _ L1) as X. discriminate.
    + intros H Q. apply Same; auto.
  - (* a directory at the path *)
    split.
    + intros H. destruct (at_or_below (d_path d) q) eqn:Q; [|reflexivity]. exfalso.
      destruct (Below eq_refl) as [Eq|(i' & g' & sub' & r & L1 & L2)].
      * subst q. pose proof (lives_fun _ _ _ Lq W _ L0) as X. discriminate.
      * pose proof (lives_fun _ _ _ L0 W _ L1) as X. injection X as <- <- <-.
        assert (sub = []); [|subst sub; inversion L2 as [? ? ? I1|? ? ? ? ? ? ? I1]; destruct I1].
        eapply dir_safe; [exact S1| | |rewrite <- E; exact H].
        -- destruct G as [G|G]; [left; exact G|right; specialize (G _ _ L0); exact G].
        -- intros Ty. apply (T d i g sub Hd Ty L0).
    + intros _ Q. subst q. pose proof (lives_fun _ _ _ Lq W _ L0) as X. discriminate.
  - (* nothing there *)
    split.
    + intros _. destruct (at_or_below (d_path d) q) eqn:Q; [|reflexivity]. exfalso.
      destruct (Below eq_refl) as [->|(i & g & sub & r & L1 & L2)]; [apply (N0 _ Lq)|apply (N0 _ L1)].
    + intros _ ->. apply (N0 _ Lq).
Qed.

(** Without force: every file of the working directory whose contents are neither the baseline's
    nor the target's for its path - modified, type-changed or untracked - is there unchanged after
    the checkout, however the checkout ends. *)
Theorem C29_safe_checkout_partial : forall st ix sm cf spec ds kids o q f,
  wf kids -> well_ordered ds -> safe st -> s_rmexist st = false ->
  ignored_ok st kids -> index_honest ix kids ->
  no_blockers ds kids -> no_shadows ds kids -> plain_typechanges ds kids ->
  checkout st ix sm cf spec ds (workdir kids) = Some o ->
  lives kids q (NFile f) -> f_mode f <> MODE_COMMIT -> f_id f <> None ->
  ~ saved st ds q f ->
  In (q, f) (outcome_files o).
Proof.
  intros st ix sm cf spec ds kids o q f W O1 S1 R G HI B Sh T H Lq NC NI NS.
  assert (I0 : In (q, f) (files (workdir kids))) by (apply files_lives; assumption).
  unfold checkout in H. destruct (actions st ix sm cf spec ds (workdir kids)) as [[[l it] rms]|] eqn:A; [|discriminate].
  destruct (remaining (Datatypes.S (isize it)) st ix spec it) as [rms'|] eqn:Rm; [|discriminate].
  destruct (actions_chosen kids st ix sm cf spec W [] ds O1 B Sh) with (4 := A) as (M & C & E).
  { intros d i g sub Hd Ty L. apply (T d i g sub Hd Ty L). }
  { intros z d _ []. }
  { intros d _. apply inv_start. exact W. }
  rewrite (E S1), (remaining_safe st ix spec S1 _ _ _ Rm) in H. cbn [app] in H.
  destruct (existsb _ l && negb (s_allow st)); [injection H as <-; exact I0|].
  destruct (s_dry_run st); [injection H as <-; exact I0|].
  assert (K : forall d a, In (d, a) l -> last (d_path d) 0 <> slash /\
     (a_rm a = true -> at_or_below (d_path d) q = false /\ ~ starts_with (q ++ [slash]) (d_path d)) /\ (a_up a = true -> q <> d_path d)).
  { intros d a Hl. assert (Hd : In d ds) by (rewrite <- M; apply (in_map fst) in Hl; exact Hl).
    split; [apply (proj2 O1 d Hd)|].
    apply (chosen_keeps kids st ix sm cf ds d a q f); try assumption; [apply (proj2 O1 d Hd)|apply C; exact Hl]. }
  destruct (effects_keep st l q f (files (workdir kids)) R I0 K) as [K1 K2].
  destruct (create_the_new st l (remove_the_old l [] (files (workdir kids)))) as [fs ok]. cbn [fst] in K1, K2.
  destruct ok; [|injection H as <-; exact K1].
  destruct (each (fun _ a => a_sub a) (checkout_submodule st) l fs) as [fs2 ok2]. cbn [fst] in K2.
  destruct ok2; injection H as <-; exact K2.
Qed.

(** When a conflict is reported, or for a dry run, the working directory is untouched. *)
Theorem C29_conflict_touches_nothing : forall st ix sm cf spec ds wd fs,
  checkout st ix sm cf spec ds wd = Some (Conflicts fs) -> fs = files wd.
Proof.
  intros st ix sm cf spec ds wd fs H. unfold checkout in H.
  destruct (actions _ _ _ _ _ _ _) as [[[l it] rms]|]; [|discriminate]. destruct (remaining _ _ _ _ _); [|discriminate].
  destruct (_ && _); [injection H as <-; reflexivity|]. destruct (s_dry_run st); [discriminate|].
  destruct (create_the_new _ _ _) as [fs1 ok]. destruct ok; [|discriminate].
  destruct (each _ _ _ _) as [fs2 ok2]. destruct ok2; discriminate.
Qed.
Theorem C29_dry_run : forall st ix sm cf spec ds wd o,
  s_dry_run st = true -> checkout st ix sm cf spec ds wd = Some o -> outcome_files o = files wd.
Proof.
  intros st ix sm cf spec ds wd o Dr H. unfold checkout in H.
  destruct (actions _ _ _ _ _ _ _) as [[[l it] rms]|]; [|discriminate]. destruct (remaining _ _ _ _ _); [|discriminate].
  rewrite Dr in H. destruct (_ && _); injection H as <-; reflexivity.
Qed.
(** A checkout always comes to an end. *)
Theorem C29_total : forall st ix sm cf spec ds wd, checkout st ix sm cf spec ds wd <> None.
Proof.
  intros. unfold checkout. destruct (actions_total st ix sm cf spec ds wd) as (l & it & rm & ->).
  destruct (remaining_total (Datatypes.S (isize it)) st ix spec it) as (rm' & ->); [lia|].
  destruct (_ && _); [discriminate|]. destruct (s_dry_run st); [discriminate|].
  destruct (create_the_new _ _ _) as [fs1 ok]. destruct ok; [|discriminate]. destruct (each _ _ _ _); discriminate.
Qed.

(** * Concrete cases *)
Definition dflt := mkstrategy false false false false false false false false false true false.
Definition noix := mkindex (fun _ => None) [].
Definition no (_ : list Z) := false.
Definition yes (_ : list Z) := true.
Definition fl (s : string) := NFile (mkfile MODE_BLOB (Some (bs s)) 1 1 false).
Definition fx (s : string) := mkfile MODE_BLOB (Some (bs s)) 1 1 false.
Definition dir l := NDir false false l.
Definition path := bs.
Definition D s p om oi nm ni := mkdelta s (bs p) om (bs oi) 0 nm (bs ni).
Definition run st ds kids := checkout st noix no no yes ds (workdir kids).

(** a/m was changed by the user, a/u is untracked, b is as in the baseline; the target deletes b and
    adds c: the checkout succeeds, removes b, writes c and leaves the rest. *)
Definition ex_kids := [(path "a", dir [(path "m", fl "mine"); (path "u", fl "new")]); (path "b", fl "old")].
Definition ex_ds := [D Unmodified "a/m" MODE_BLOB "base" MODE_BLOB "base"; D Deleted "b" MODE_BLOB "old" 0 ""; D Added "c" 0 "" MODE_BLOB "fresh"].
Example C29_case : run dflt ex_ds ex_kids =
  Some (Done [(path "c", mkfile MODE_BLOB (Some (bs "fresh")) 0 0 false); (path "a/m", fx "mine"); (path "a/u", fx "new")]).
Proof. vm_compute. reflexivity. Qed.

Lemma lives_inv kids q n : lives kids q n ->
  In (q, n) kids \/ exists name i g sub r, In (name, NDir i g sub) kids /\ q = name ++ slash :: r /\ lives sub r n.
Proof. intros L. inversion L; subst; [left; assumption|right]. repeat eexists; eauto. Qed.

Lemma ex_lives q n : lives ex_kids q n -> 
  (q = path "a" /\ n = dir [(path "m", fl "mine"); (path "u", fl "new")]) \/ (q = path "a/m" /\ n = fl "mine") \/ (q = path "a/u" /\ n = fl "new") \/ (q = path "b" /\ n = fl "old").
Proof.
  intros L. apply lives_inv in L. destruct L as [[E|[E|[]]]|(name & i & g & sub & r & [E|[E|[]]] & -> & L)].
  - injection E as <- <-. left. split; reflexivity.
  - injection E as <- <-. right. right. right. split; reflexivity.
  - injection E as <- <- <- <-. apply lives_inv in L. destruct L as [[E|[E|[]]]|(name & i & g & sub & r' & [E|[E|[]]] & -> & L)]; try discriminate E; injection E as <- <-.
    + right. left. split; reflexivity.
    + right. right. left. split; reflexivity.
  - discriminate E.
Qed.
Example C29_case_meets :
  wf ex_kids /\ well_ordered ex_ds /\ safe dflt /\ s_rmexist dflt = false /\ ignored_ok dflt ex_kids /\ index_honest noix ex_kids /\
  no_blockers ex_ds ex_kids /\ no_shadows ex_ds ex_kids /\ plain_typechanges ex_ds ex_kids /\
  lives ex_kids (path "a/m") (NFile (fx "mine")) /\ ~ saved dflt ex_ds (path "a/m") (fx "mine").
Proof.
  split; [|split; [|split; [|split; [|split; [|split; [|split; [|split; [|split; [|split]]]]]]]]].
  - assert (Sub : wf [(path "m", fl "mine"); (path "u", fl "new")]).
    { constructor.
      - intros name n [E|[E|[]]]; injection E as <- <-; (split; [discriminate|]); intros Q; cbn in Q; intuition discriminate.
      - intros name f [E|[E|[]]]; injection E as <- <-; discriminate.
      - intros name i g sub [E|[E|[]]]; discriminate.
      - repeat constructor; cbn; intuition discriminate.
      - constructor; [constructor; [constructor|constructor]|]. constructor; [reflexivity|constructor]. }
    constructor.
    + intros name n [E|[E|[]]]; injection E as <- <-; (split; [discriminate|]); intros Q; cbn in Q; intuition discriminate.
    + intros name f [E|[E|[]]]; [discriminate|injection E as <- <-; discriminate].
    + intros name i g sub [E|[E|[]]]; [injection E as <- <- <- <-; exact Sub|discriminate].
    + repeat constructor; cbn; intuition discriminate.
    + constructor; [constructor; [constructor|constructor]|]. constructor; [reflexivity|constructor].
  - split.
    + constructor; [constructor; [constructor; [constructor|constructor]|constructor; [reflexivity|constructor]]|constructor; [reflexivity|constructor; [reflexivity|constructor]]].
    + intros d [<-|[<-|[<-|[]]]]; (split; [discriminate|intros Q; vm_compute in Q; discriminate]).
  - repeat split.
  - reflexivity.
  - right. intros q n L. apply ex_lives in L. destruct L as [[-> ->]|[[-> ->]|[[-> ->]|[-> ->]]]]; reflexivity.
  - intros q f e _ E. discriminate.
  - intros d q f Hd L [v E]. apply ex_lives in L.
    destruct L as [[_ Dn]|[[-> _]|[[-> _]|[-> _]]]]; [discriminate| | |]; destruct Hd as [<-|[<-|[<-|[]]]]; cbn in E; discriminate.
  - intros d i g sub Hd L q n c Lq Hc [v E]. apply ex_lives in L. destruct L as [[E1 _]|[[_ X]|[[_ X]|[_ X]]]]; try discriminate.
    destruct Hd as [<-|[<-|[<-|[]]]]; discriminate E1.
  - intros d i g sub Hd Ty. destruct Hd as [<-|[<-|[<-|[]]]]; discriminate Ty.
  - eapply (lives_below ex_kids (path "a")); [left; reflexivity|]. constructor. left. reflexivity.
  - intros (d & Hd & Ep & [E|E] & _); destruct Hd as [<-|[<-|[<-|[]]]]; try discriminate Ep; discriminate E.
Qed.

(** ** What the conditions are for: without each of them a safe checkout destroys work *)
Definition loses (st : strategy) ds kids q f : Prop :=
  safe st /\ lives kids q (NFile f) /\ ~ saved st ds q f /\
  exists fs, run st ds kids = Some (Done fs) /\ find_file q fs <> Some f.

Ltac unsaved := intros (d & Hd & Ep & [E|E] & _); cbn in Hd; repeat (destruct Hd as [<-|Hd]; [try discriminate Ep; discriminate E|]); destruct Hd.

(** [no_shadows]. The baseline's file "a" was replaced by a directory with an untracked file; "a.b"
    sorts between "a" and "a/", so the walk does not see the directory when it handles "a". The
    target deletes "a": the whole directory is removed. *)
Theorem C29_shadow_refuted : exists ds kids q f, loses dflt ds kids q f.
Proof.
  exists [D Deleted "a" MODE_BLOB "old" 0 ""; D Unmodified "a.b" MODE_BLOB "x" MODE_BLOB "x"],
    [(path "a.b", fl "x"); (path "a", dir [(path "notes", fl "precious")])], (path "a/notes"), (fx "precious").
  split; [repeat split|]. split; [eapply (lives_below _ (path "a")); [right; left; reflexivity|constructor; left; reflexivity]|].
  split; [unsaved|]. eexists. split; [vm_compute; reflexivity|vm_compute; discriminate].
Qed.

(** [plain_typechanges], first case. The target replaces the directory "a" by an executable file (or
    a symbolic link): because the modes differ the action also removes what is there - the directory
    with the untracked file. *)
Theorem C29_dir_to_executable_refuted : exists mode ds kids q f,
  (mode = MODE_EXEC \/ mode = MODE_LINK) /\ ds = [D Typechange "a" MODE_TREE "" mode "prog"; D Deleted "a/x" MODE_BLOB "old" 0 ""] /\ loses dflt ds kids q f.
Proof.
  exists MODE_EXEC. eexists _, [(path "a", dir [(path "notes", fl "precious"); (path "x", fl "old")])], (path "a/notes"), (fx "precious").
  split; [left; reflexivity|]. split; [reflexivity|].
  split; [repeat split|]. split; [eapply (lives_below _ (path "a")); [left; reflexivity|constructor; left; reflexivity]|].
  split; [unsaved|]. eexists. split; [vm_compute; reflexivity|vm_compute; discriminate].
Qed.
Theorem C29_dir_to_link_refuted : exists ds kids q f,
  ds = [D Typechange "a" MODE_TREE "" MODE_LINK "dest"; D Deleted "a/x" MODE_BLOB "old" 0 ""] /\ loses dflt ds kids q f.
Proof.
  eexists _, [(path "a", dir [(path "notes", fl "precious"); (path "x", fl "old")])], (path "a/notes"), (fx "precious").
  split; [reflexivity|].
  split; [repeat split|]. split; [eapply (lives_below _ (path "a")); [left; reflexivity|constructor; left; reflexivity]|].
  split; [unsaved|]. eexists. split; [vm_compute; reflexivity|vm_compute; discriminate].
Qed.
(** [plain_typechanges], second case. The target replaces the file "a" by a directory; the user has
    already replaced it by one with untracked files: a directory is never "modified", so it is
    removed with everything in it. *)
Theorem C29_file_to_dir_refuted : exists ds kids q f, loses dflt ds kids q f.
Proof.
  exists [D Typechange "a" MODE_BLOB "old" MODE_TREE ""; D Added "a/x" 0 "" MODE_BLOB "new"],
    [(path "a", dir [(path "notes", fl "precious")])], (path "a/notes"), (fx "precious").
  split; [repeat split|]. split; [eapply (lives_below _ (path "a")); [left; reflexivity|constructor; left; reflexivity]|].
  split; [unsaved|]. eexists. split; [vm_compute; reflexivity|vm_compute; discriminate].
Qed.
(** [no_blockers]. The user replaced the directory "a" by a file. "a/k" is unchanged in the target:
    the file is merely reported and the walk moves past it. "a/x" is deleted in the target: nothing
    is seen at its place, it is removed, and removing "a/x" removes the file "a" that is in its way. *)
Theorem C29_blocker_refuted : exists ds kids q f, loses dflt ds kids q f.
Proof.
  exists [D Unmodified "a/k" MODE_BLOB "k" MODE_BLOB "k"; D Deleted "a/x" MODE_BLOB "old" 0 ""],
    [(path "a", fl "precious")], (path "a"), (fx "precious").
  split; [repeat split|]. split; [constructor; left; reflexivity|].
  split; [unsaved|]. eexists. split; [vm_compute; reflexivity|vm_compute; discriminate].
Qed.
(** [s_rmexist]. With core.ignorecase the file that replaces a directory is written after removing
    whatever is left there. *)
Theorem C29_ignorecase_refuted : exists st ds kids q f, s_rmexist st = true /\ plain_typechanges ds kids /\ loses st ds kids q f.
Proof.
  exists (mkstrategy false false false false false false false false false true true),
    [D Typechange "a" MODE_TREE "" MODE_BLOB "prog"; D Deleted "a/x" MODE_BLOB "old" 0 ""],
    [(path "a", dir [(path "notes", fl "precious"); (path "x", fl "old")])], (path "a/notes"), (fx "precious").
  split; [reflexivity|]. split.
  { intros d i g sub [<-|[<-|[]]] Ty _; [|discriminate]. repeat split; discriminate. }
  split; [repeat split|]. split; [eapply (lives_below _ (path "a")); [left; reflexivity|constructor; left; reflexivity]|].
  split; [unsaved|]. eexists. split; [vm_compute; reflexivity|vm_compute; discriminate].
Qed.
(** [ignored_ok]. Ignored files are overwritten by added ones unless GIT_CHECKOUT_DONT_OVERWRITE_IGNORED is given. *)
Theorem C29_ignored_refuted : exists ds kids q f, f_ignored f = true /\ loses dflt ds kids q f.
Proof.
  exists [D Added "a" 0 "" MODE_BLOB "new"],
    [(path "a", NFile (mkfile MODE_BLOB (Some (bs "precious")) 1 1 true))], (path "a"), (mkfile MODE_BLOB (Some (bs "precious")) 1 1 true).
  split; [reflexivity|]. split; [repeat split|]. split; [constructor; left; reflexivity|].
  split; [unsaved|]. eexists. split; [vm_compute; reflexivity|vm_compute; discriminate].
Qed.
(** A file that cannot be hashed counts as unmodified and is overwritten. *)
Theorem C29_unreadable_refuted : exists ds kids q f, f_id f = None /\ loses dflt ds kids q f.
Proof.
  exists [D Modified "a" MODE_BLOB "old" MODE_BLOB "new"],
    [(path "a", NFile (mkfile MODE_BLOB None 1 1 false))], (path "a"), (mkfile MODE_BLOB None 1 1 false).
  split; [reflexivity|]. split; [repeat split|]. split; [constructor; left; reflexivity|].
  split; [unsaved|]. eexists. split; [vm_compute; reflexivity|vm_compute; discriminate].
Qed.

Print Assumptions C29_safe_checkout_partial.

(** A file in the place of a directory that a difference needs: an added, modified, deleted or
    type-changed entry below it is a conflict, and nothing is removed or written for it. *)
Theorem C29_blocker_conflict : forall st d w, s_force st = false -> s_none st = false -> d_status d <> Unmodified ->
  action_blocker st d w = CONFLICT.
Proof.
  intros st d w F N S1. unfold action_blocker. rewrite N, F. cbn [action_if].
  destruct (d_status d); try contradiction; unfold action_common; destruct (s_update_only st); reflexivity.
Qed.
Example C29_blocker_case : run dflt [D Added "a/x" 0 "" MODE_BLOB "x2"] [(path "a", fl "mine")] = Some (Conflicts [(path "a", fx "mine")]).
Proof. vm_compute. reflexivity. Qed.
