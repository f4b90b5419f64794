(** C13: the in-memory index after any history of calls.

    Each theorem speaks of the index [ix] reached from an empty one by any list
    of calls [ops], whose stages are 0..3 ([git_index_remove] is wrong outside
    that range, see [C13_remove_stage_refuted]).  [path_ok] is any check of
    paths, [ic] is ignore_case. *)
From Verif Require Import Base Arr Str CStr VectorModel VectorSpec VectorProofs WildModel IndexModel IndexSpec IndexProofs IndexMain.
From Coq Require Import Sorting.Sorted.

Lemma inv_inew_wf path_ok ic : wf path_ok ic inew.
Proof. split; [apply inv_new|intros e []]. Qed.
Lemma irun_wf path_ok ic : forall ops ix, wf path_ok ic ix -> Forall op_ok ops -> exists ix', irun path_ok ic ix ops = Ok ix' /\ wf path_ok ic ix'.
Proof.
  induction ops as [|o ops IH]; intros ix Hw Ho; cbn [irun]; [eauto|]. inversion_clear Ho.
  destruct (step_spec path_ok ic ix o Hw H) as (c & ix' & E & W). rewrite E. cbn [bindr]. apply IH; assumption.
Qed.
Definition reached (path_ok : list Z -> bool) (ic : bool) (ops : list iop) (ix : index) : Prop :=
  Forall op_ok ops /\ irun path_ok ic inew ops = Ok ix.
Lemma reached_wf path_ok ic ops ix : reached path_ok ic ops ix -> wf path_ok ic ix.
Proof. intros [H E]. destruct (irun_wf path_ok ic ops inew (inv_inew_wf _ _) H) as (ix' & E' & W). congruence. Qed.

(** Every history runs without undefined behaviour, leaves the entries in
    order of path and stage with no key twice, only valid paths and stages. *)
Theorem C13_history path_ok ic ops : Forall op_ok ops -> exists ix, irun path_ok ic inew ops = Ok ix /\
  ordered ic (listing ix) /\
  (forall a b, In a (listing ix) -> In b (listing ix) -> same_key ic (e_path a) (e_stage a) (e_path b) (e_stage b) -> a = b) /\
  (forall e, In e (listing ix) -> path_ok (e_path e) = true /\ 0 <= e_stage e <= 3).
Proof.
  intros H. destruct (irun_wf path_ok ic ops inew (inv_inew_wf _ _) H) as (ix & E & [I W]). exists ix. split; [exact E|].
  assert (S := inv_sorted _ _ I). split; [apply ss_nth, S|]. split; [|exact W]. intros a b Ha Hb K. apply (ss_key ic (listing ix)); [exact S|exact Ha|exact Hb|]. apply ecmp_eq, K.
Qed.

(** git_index_get_bypath finds exactly the entry of that path and stage. *)
Theorem C13_get_bypath path_ok ic ops ix p st : reached path_ok ic ops ix -> 0 <= st <= 3 ->
  match get_bypath ic ix p st with
  | Some e => In e (listing ix) /\ same_key ic p st (e_path e) (e_stage e)
  | None => forall e, In e (listing ix) -> ~ same_key ic p st (e_path e) (e_stage e)
  end.
Proof.
  intros R Hs. destruct (reached_wf _ _ _ _ R) as [I _]. unfold get_bypath, map_get. rewrite land3 by lia.
  destruct (find _ _) as [e|] eqn:E.
  - apply find_some in E as [H1 H2]. split; [|apply key_eq_spec, H2]. apply (Permutation_in _ (Permutation_sym (inv_map _ _ I))), H1.
  - intros e He K. apply (Permutation_in _ (inv_map _ _ I)) in He. apply (find_none _ _ E) in He. apply key_eq_spec in K. congruence.
Qed.

(** git_index_find returns the first position holding that path, at any stage. *)
Theorem C13_find path_ok ic ops ix p : reached path_ok ic ops ix ->
  exists o, index_find ic ix p = Ok (o, ix) /\
  match o with
  | Some pos => (exists e, nth_error (listing ix) pos = Some e /\ folded ic (e_path e) = folded ic p) /\
                forall i e, (i < pos)%nat -> nth_error (listing ix) i = Some e -> folded ic (e_path e) <> folded ic p
  | None => forall e, In e (listing ix) -> folded ic (e_path e) <> folded ic p
  end.
Proof.
  intros R. destruct (reached_wf _ _ _ _ R) as [I _]. destruct (find_spec ic ix p I) as [[E H]|(pos & e & E & He & Hf & Hb)]; eexists; (split; [exact E|]); cbn.
  - exact H.
  - split; [eauto|]. intros i x Hi Hx K. specialize (Hb i x Hi Hx). rewrite K, lex_refl in Hb. discriminate.
Qed.

(** git_index_find_prefix succeeds exactly when some entry starts with the
    prefix (when case matters), and what it returns is such an entry. *)
Theorem C13_find_prefix_partial path_ok ops ix p : reached path_ok false ops ix ->
  exists o, index_find_prefix false ix p = Ok (o, ix) /\
  match o with
  | Some pos => exists e, nth_error (listing ix) pos = Some e /\ starts_with p (e_path e)
  | None => forall e, In e (listing ix) -> ~ starts_with p (e_path e)
  end.
Proof.
  intros R. destruct (reached_wf _ _ _ _ R) as [I _]. unfold index_find_prefix.
  destruct (ifind_spec false ix p (-1) I) as (found & pos & Ef & A). rewrite Ef. cbn [bindr].
  assert (Hlex : forall y, srch false p (-1) y = pcmp false p (e_path y)).
  { intros y. rewrite srch_eq. change (-1 =? -1) with true. cbv iota. destruct (Z.eqb_spec (pcmp false p (e_path y)) 0); congruence. }
  destruct found.
  - destruct A as (e & He & Hk). rewrite He. rewrite Hlex in Hk. apply pcmp_eq in Hk. rewrite !folded_false in Hk.
    assert (P : starts_with p (e_path e)) by (exists []; rewrite app_nil_r; congruence). assert (P' := P). apply prefixb_spec in P'. rewrite P'. eexists. split; [reflexivity|]. exists e. split; [exact He|exact P].
  - destruct A as (Hp & A1 & A2).
    assert (Hbefore : forall i x, (i < pos)%nat -> nth_error (listing ix) i = Some x -> ~ starts_with p (e_path x)).
    { intros i x Hi Hx [v Hv]. specialize (A1 i x Hi Hx). rewrite Hlex in A1. apply pcmp_gt in A1. rewrite !folded_false in A1.
      destruct v as [|c v]; [rewrite Hv, app_nil_r, lex_refl in A1; discriminate|]. rewrite Hv, lex_prefix in A1 by discriminate. discriminate. }
    destruct (nth_error (items (i_ents ix)) pos) as [e|] eqn:He.
    + destruct (prefixb p (e_path e)) eqn:P; eexists; (split; [reflexivity|]); cbn.
      * exists e. split; [exact He|]. apply prefixb_spec, P.
      * intros x Hx Sx. apply In_nth_error in Hx as [i Hx]. destruct (Nat.lt_trichotomy i pos) as [L|[->|L]]; [exact (Hbefore i x L Hx Sx)| |].
        { unfold listing in Hx. rewrite He in Hx. injection Hx as <-. apply prefixb_spec in Sx. congruence. }
        assert (firstn (length p) (e_path x) <> p) as N.
        { apply (prefix_gap p (e_path e) (e_path x)).
          - specialize (A2 pos e ltac:(lia) He). rewrite Hlex in A2. apply pcmp_lt in A2. rewrite !folded_false in A2. exact A2.
          - intros F. apply not_true_iff_false in P. apply P. apply prefixb_spec. exists (skipn (length p) (e_path e)). rewrite <- F at 1. symmetry. apply firstn_skipn.
          - assert (B := proj1 (ss_nth _ _) (inv_sorted _ _ I) pos i e x L He Hx). destruct B as [B|[B _]]; rewrite !folded_false in B; rewrite B; [discriminate|rewrite lex_refl; discriminate]. }
        destruct Sx as [v Hv]. apply N. rewrite Hv, firstn_app, firstn_all, Nat.sub_diag. apply app_nil_r.
    + eexists. split; [reflexivity|]. cbn. intros x Hx Sx. apply In_nth_error in Hx as [i Hx].
      apply nth_error_None in He. assert (i < length (listing ix))%nat by (apply nth_error_Some; congruence). unfold listing in *. apply (Hbefore i x ltac:(lia) Hx Sx).
Qed.

(** git_index_add: refused sources change nothing; otherwise the entry is
    there with the data given and canonical mode, and every other entry is kept
    as it was unless it cannot coexist with the new one. *)
Theorem C13_add path_ok ic ops ix s : reached path_ok ic ops ix -> 0 <= s_stage s <= 3 ->
  exists c ix', index_add path_ok ic ix s = Ok (c, ix') /\
    (valid_filemode (s_mode s) && path_ok (s_path s) && s_id_ok s = false -> c = -1 /\ listing ix' = listing ix) /\
    (valid_filemode (s_mode s) && path_ok (s_path s) && s_id_ok s = true -> c = 0 /\
      exists n, shown n = (s_path s, s_stage s, s_mode s, s_data s) /\ In n (listing ix') /\
       (forall x, In x (listing ix') -> x = n \/ (In x (listing ix) /\ ~ same_key ic (s_path s) (s_stage s) (e_path x) (e_stage x))) /\
       (forall x, In x (listing ix) -> ~ same_key ic (s_path s) (s_stage s) (e_path x) (e_stage x) ->
          In x (listing ix') \/ collides ic (s_path s) (s_stage s) x)).
Proof.
  intros R Hs. destruct (add_spec path_ok ic ix s (reached_wf _ _ _ _ R) Hs) as (c & ix' & E & _ & F & G). exists c, ix'. split; [exact E|]. split; [exact F|].
  intros H. destruct (G H) as (-> & n & G1 & G2 & G3 & G4 & G5 & G6 & G7 & _). split; [reflexivity|]. exists n. split; [|auto].
  unfold shown. rewrite G1, G2, G3, G4. repeat f_equal. apply andb_prop in H as [H _]. apply andb_prop in H as [H _]. unfold valid_filemode in H. rewrite !orb_true_iff, !Z.eqb_eq in H.
  destruct H as [[[->| ->]| ->]| ->]; reflexivity.
Qed.

(** Adding keeps the index free of file/directory collisions when no entry lies
    in a directory named like the new file, or the new file comes first; see
    the refutation below for the missing case. *)
Theorem C13_add_collision_partial path_ok ops ix s c ix' : reached path_ok false ops ix -> 0 <= s_stage s <= 3 ->
  (forall p, path_ok p = true -> p <> []) ->
  index_add path_ok false ix s = Ok (c, ix') -> collision_free (listing ix) ->
  (forall x, In x (listing ix) -> e_stage x = s_stage s -> ~ under (s_path s) (e_path x)) \/
  (forall x, In x (listing ix) -> lex (s_path s) (e_path x) = Lt) ->
  collision_free (listing ix').
Proof.
  intros R Hs Hne E Hcf Hcase. destruct (add_spec path_ok false ix s (reached_wf _ _ _ _ R) Hs) as (c2 & ix2 & E2 & [_ W] & F & G). rewrite E in E2. injection E2 as <- <-.
  destruct (valid_filemode (s_mode s) && path_ok (s_path s) && s_id_ok s) eqn:V.
  2:{ destruct (F eq_refl) as [_ F2]. unfold listing. rewrite F2. exact Hcf. }
  destruct (G eq_refl) as (_ & n & G1 & G2 & _ & _ & G5 & G6 & _ & G8). destruct (G8 eq_refl Hcf) as [K1 K2].
  assert (K3 : forall x, In x (listing ix') -> e_stage x = s_stage s -> ~ under (s_path s) (e_path x)).
  { destruct Hcase as [H|H]; [|exact (K2 H)]. intros x Hx Hst. destruct (G6 x Hx) as [->|[Hx' _]]; [|apply H; assumption].
    rewrite G1. intros [r Hr]. apply (f_equal (@length Z)) in Hr. rewrite app_length in Hr. cbn in Hr. lia. }
  intros a b Ha Hb Hst. destruct (G6 a Ha) as [->|[Ha' _]].
  - rewrite G1. apply K3; [exact Hb|congruence].
  - destruct (G6 b Hb) as [->|[Hb' _]]; [|apply Hcf; assumption]. rewrite G1. apply K1; [exact Ha|congruence|]. apply Hne, W, Ha.
Qed.

(** git_index_remove removes exactly that entry. *)
Theorem C13_remove path_ok ic ops ix p st : reached path_ok ic ops ix -> 0 <= st <= 3 ->
  exists c ix', index_remove ic ix p st = Ok (c, ix') /\
    (forall x, In x (listing ix') <-> In x (listing ix) /\ ~ same_key ic p st (e_path x) (e_stage x)) /\
    (c = 0 /\ (exists x, In x (listing ix) /\ same_key ic p st (e_path x) (e_stage x)) \/
     c = -3 /\ (forall x, In x (listing ix) -> ~ same_key ic p st (e_path x) (e_stage x)) /\ ix' = ix).
Proof.
  intros R Hs. destruct (reached_wf _ _ _ _ R) as [I _]. destruct (remove_spec ic ix p st I Hs) as (c & ix' & E & _ & _ & M & C). exists c, ix'. auto.
Qed.

(** git_index_remove_directory: removes entries of that stage below the
    directory only; when case matters, all of them. *)
Theorem C13_remove_directory path_ok ic ops ix dir st : reached path_ok ic ops ix ->
  dir <> [] -> last dir 0 <> 47 -> (forall p, path_ok p = true -> last p 0 <> 47) ->
  exists ix', index_remove_directory ic ix dir st = Ok (0, ix') /\
    (forall x, In x (listing ix') -> In x (listing ix)) /\
    (forall x, In x (listing ix) -> ~ (e_stage x = st /\ under dir (e_path x)) -> In x (listing ix')) /\
    (ic = false -> forall x, In x (listing ix') -> ~ (e_stage x = st /\ under dir (e_path x))).
Proof.
  intros R Hne Hlast Hd. destruct (reached_wf _ _ _ _ R) as [I W]. destruct (remove_dir_spec ic ix dir st I) as (ix' & E & (_ & _ & Inc & K) & X). exists ix'. split; [exact E|].
  assert (Ed : to_dir dir = dir ++ [47]) by (unfold to_dir; destruct dir; [contradiction|]; destruct (Z.eqb_spec (last (z :: dir) 0) 47); [contradiction|reflexivity]).
  assert (Hu : forall p, starts_with (to_dir dir) p <-> under dir p).
  { intros p. rewrite Ed. unfold starts_with, under. split; intros [r Hr]; exists r; rewrite Hr, <- ?app_assoc; reflexivity. }
  split; [exact Inc|]. split; [intros x Hx N; destruct (K x Hx) as [|[K1 K2]]; [assumption|exfalso; apply N; split; [exact K1|apply Hu, K2]]|].
  intros Hic x Hx N. apply (X Hic) in Hx.
  - apply (proj2 Hx). destruct N as [N1 N2]. split; [exact N1|]. apply Hu, N2.
  - intros e He Ee. apply (Hd (e_path e)); [apply W, He|]. rewrite Ee, Ed. apply last_last.
Qed.

(** git_index_conflict_add with acceptable entries: afterwards each side given
    is at its stage, no stage-0 entry of these paths is left, and anything else
    stays unless it cannot coexist with a new one. *)
Theorem C13_conflict_add path_ok ic ops ix a o t : reached path_ok ic ops ix ->
  (forall s, In (Some s) [a; o; t] -> path_ok (s_path s) = true /\ valid_filemode (s_mode s) = true /\ s_id_ok s = true) ->
  exists ix', conflict_add path_ok ic ix a o t = Ok (0, ix') /\
     (forall k s, nth_error [a; o; t] k = Some (Some s) -> exists n, In n (listing ix') /\ shown n = (s_path s, Z.of_nat k + 1, s_mode s, s_data s)) /\
     (forall s x, In (Some s) [a; o; t] -> In x (listing ix') -> ~ same_key ic (s_path s) 0 (e_path x) (e_stage x)) /\
     (forall x, In x (listing ix') -> In x (listing ix) \/ exists k s, nth_error [a; o; t] k = Some (Some s) /\ e_path x = s_path s /\ e_stage x = Z.of_nat k + 1) /\
     (forall x, In x (listing ix) ->
        (forall k s, nth_error [a; o; t] k = Some (Some s) -> ~ same_key ic (s_path s) 0 (e_path x) (e_stage x) /\
           ~ same_key ic (s_path s) (Z.of_nat k + 1) (e_path x) (e_stage x) /\ ~ collides ic (s_path s) (Z.of_nat k + 1) x) ->
        In x (listing ix')).
Proof.
  intros R H. destruct (conflict_add_spec path_ok ic ix a o t (reached_wf _ _ _ _ R)) as (c & ix' & E & _ & G). destruct (G H) as (-> & G1 & G2 & G3 & G4). exists ix'. split; [exact E|].
  split; [|auto]. intros k s Hk. destruct (G1 k s Hk) as (n & Hn & A & B & C & D). exists n. split; [exact Hn|]. unfold shown. rewrite A, B, C, D. repeat f_equal.
  destruct (H s (nth_error_In _ _ Hk)) as (_ & V & _). unfold valid_filemode in V. rewrite !orb_true_iff, !Z.eqb_eq in V. destruct V as [[[->| ->]| ->]| ->]; reflexivity.
Qed.

(** git_index_conflict_remove / git_index_conflict_cleanup remove exactly the
    conflict entries of the path / of every path. *)
Theorem C13_conflict_remove path_ok ic ops ix path : reached path_ok ic ops ix ->
  exists c ix', index_conflict_remove ic ix path = Ok (c, ix') /\
    (forall x, In x (listing ix') <-> In x (listing ix) /\
       ~ (e_stage x <> 0 /\ match path with Some p => folded ic (e_path x) = folded ic p | None => True end)).
Proof.
  intros R. destruct (reached_wf _ _ _ _ R) as [I _]. destruct (conflict_remove_spec ic ix path I) as (c & ix' & E & _ & _ & M). eauto.
Qed.

(** *** Refutations and examples *)
Definition any_path (p : list Z) : bool := match p with [] => false | _ => negb (last p 0 =? 47) end.
Definition src (p : list Z) (st d : Z) : source := mks p st 33188 d true.
Definition run_listing (ops : list iop) : res (list (list Z * Z * Z * Z)) :=
  do ix <- irun any_path false inew ops ;; Ok (map shown (listing ix)).

(** "a", "b/c", then "b": both "b" and "b/c" stay. *)
Theorem C13_add_collision_refuted : exists ops ix,
  reached any_path false ops ix /\ ~ collision_free (listing ix).
Proof.
  exists [IAdd (src [97] 0 1); IAdd (src [98; 47; 99] 0 2); IAdd (src [98] 0 3)]. eexists. split.
  - split; [repeat (constructor; [cbn; lia|]); constructor|]. vm_compute. reflexivity.
  - intros H. apply (H (mke 2 [98] 0 33188 3) (mke 1 [98; 47; 99] 0 33188 2)); [right; left; reflexivity|right; right; left; reflexivity|reflexivity|]. exists [99]. reflexivity.
Qed.
(** Three stages of "a": git_index_find_prefix returns the second. *)
Theorem C13_find_prefix_first_refuted : exists ops ix,
  reached any_path false ops ix /\ index_find_prefix false ix [97] = Ok (Some 1%nat, ix) /\
  exists e, nth_error (listing ix) 0 = Some e /\ starts_with [97] (e_path e).
Proof.
  exists [IConflictAdd (Some (src [97] 0 1)) (Some (src [97] 0 2)) (Some (src [97] 0 3))]. eexists. split; [|split].
  - split; [repeat (constructor; [cbn; exact I|]); constructor|]. vm_compute. reflexivity.
  - vm_compute. reflexivity.
  - eexists. split; [vm_compute; reflexivity|]. exists []. reflexivity.
Qed.
(** git_index_remove with stage 4: the entry of stage 0 leaves the map only, so
    it is still listed but not found by path. *)
Theorem C13_remove_stage_refuted : exists ix ix' e,
  reached any_path false [IAdd (src [97] 0 1)] ix /\ index_remove false ix [97] 4 = Ok (-3, ix') /\
  listing ix' = [e] /\ e_path e = [97] /\ e_stage e = 0 /\ get_bypath false ix' [97] 0 = None.
Proof.
  eexists. eexists. eexists. split; [|split; [|split; [|split]]].
  - split; [repeat (constructor; [cbn; lia|]); constructor|]. vm_compute. reflexivity.
  - vm_compute. reflexivity.
  - reflexivity.
  - reflexivity.
  - split; reflexivity.
Qed.

Example C13_ex_ops : list iop :=
  [IAdd (src [98] 0 1); IAdd (src [97; 47; 98] 0 2); IConflictAdd (Some (src [99] 0 3)) None (Some (src [99] 0 4)); IAdd (src [97; 47; 98] 0 9); IAdd (src [97] 0 5)].
Example C13_ex_ok : Forall op_ok C13_ex_ops.
Proof. repeat (constructor; [cbn; lia || exact I|]). constructor. Qed.
Example C13_ex : run_listing C13_ex_ops =
  Ok [([97], 0, 33188, 5); ([98], 0, 33188, 1); ([99], 1, 33188, 3); ([99], 3, 33188, 4)].
Proof. vm_compute. reflexivity. Qed.
Example C13_ex_dir : run_listing [IAdd (src [97] 0 1); IAdd (src [97; 47; 98] 0 2)] = Ok [([97; 47; 98], 0, 33188, 2)].
Proof. vm_compute. reflexivity. Qed.
Example C13_ex_path_ok : forall p, any_path p = true -> p <> [] /\ last p 0 <> 47.
Proof. intros p H. unfold any_path in H. destruct p as [|c p]; [discriminate|]. split; [discriminate|]. apply negb_true_iff, Z.eqb_neq in H. exact H. Qed.
Print Assumptions C13_history.
Print Assumptions C13_conflict_add.
