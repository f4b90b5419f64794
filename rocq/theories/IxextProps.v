(** Index extensions: the theorems. *)
From Verif Require Import Base Arr Str IntModel SigModel VectorModel HashModel WtreeModel ReflogProofs
  IdxFileModel IdxFileSpec IdxFileProofs IdxFileMain IdxFileProps IxextModel IxextSpec IxextProofs IxextRu.

(** *** What is written is read back *)
(** A tree cache is read back as it was written, except for the ids of directories whose contents are
    not known. *)
Theorem C72_tree_round_trip osz aft t : cache_ok osz t -> exists t', tree_read osz aft (tree_write t) = Ok t' /\ same_cache t t'.
Proof.
  intros H. exists (blank osz t). split; [|apply blank_same]. unfold tree_read. rewrite <- (app_nil_r (tree_write t)) at 2. rewrite tree_read_write by (auto; lia). reflexivity.
Qed.
(** Resolve-undo entries are read back, provided the last one has an id. *)
Theorem C72_reuc_round_trip osz aft l : (1 <= osz)%nat -> Forall (reuc_ok osz) l -> last_has_mode l -> exists l', reuc_read osz aft (reuc_write l) = Ok l' /\ Forall2 same_reuc l l'.
Proof.
  intros Hz H HL. exists (map (blank_ru osz) l). split.
  - unfold reuc_read. apply reuc_loop_write; auto. pose proof (reuc_write_len l). lia.
  - clear HL. induction H; cbn [map]; constructor; auto. now apply blank_ru_same.
Qed.
(** If the last entry has no id the extension that is written is refused. *)
Theorem C72_reuc_no_mode_refuted osz aft l r : (1 <= osz)%nat -> Forall (reuc_ok osz) l -> reuc_ok osz r -> ~ some_mode r -> reuc_read osz aft (reuc_write (l ++ [r])) = Err (-1).
Proof.
  intros Hz H Hr Hno. unfold reuc_read. apply reuc_loop_zero; auto. pose proof (reuc_write_len (l ++ [r])) as L. rewrite app_length in L. cbn [length] in L. lia.
Qed.
(** Names are read exactly from the bytes that are written for them. *)
Theorem C72_names_exact s l : name_read s = Ok l <-> Forall cname_ok l /\ s = name_write l.
Proof.
  unfold name_read. split.
  - intros E. destruct (name_loop_ok (S (length s)) s (Nat.lt_succ_diag_r _)) as [(l' & E' & H & P)|[E' _]]; rewrite E in E'; [|discriminate]. apply Ok_inj in E'. subst l'. auto.
  - intros [H E]. destruct (name_loop_ok (S (length s)) s (Nat.lt_succ_diag_r _)) as [(l' & E' & H' & P')|[_ N]]; [|exfalso; exact (N l H E)]. rewrite E'. f_equal.
    rewrite E in P'. clear - H H' P'. revert l' H' P'. induction l as [|c l IH]; intros [|c' l'] H' P'; [reflexivity| | |].
    + exfalso. rewrite (name_write_cons c' l') in P'. pose proof (name_w1_pos (fst (fst c'))) as L. destruct (name_write1 (fst (fst c'))); [cbn [length] in L; lia|discriminate].
    + exfalso. rewrite (name_write_cons c l) in P'. pose proof (name_w1_pos (fst (fst c))) as L. destruct (name_write1 (fst (fst c))); [cbn [length] in L; lia|discriminate].
    + inversion H as [|? ? (H1 & H2 & H3) Hl]; subst. inversion H' as [|? ? (H1' & H2' & H3') Hl']; subst. rewrite !name_write_cons in P'.
      assert (Q : forall o o' r r', opt_ok o -> opt_ok o' -> name_write1 o ++ r = name_write1 o' ++ r' -> o = o' /\ r = r').
      { clear. intros o o' r r' H H' E. pose proof (proj2 (name1_iff _ o r) (conj H eq_refl)) as A. rewrite E in A. rewrite (proj2 (name1_iff _ o' r') (conj H' eq_refl)) in A. apply Ok_inj in A. split; congruence. }
      apply Q in P'; auto. destruct P' as [A1 P']. apply Q in P'; auto. destruct P' as [A2 P']. apply Q in P'; auto. destruct P' as [A3 P'].
      f_equal; [|apply IH; auto]. destruct c as [[? ?] ?], c' as [[? ?] ?]. cbn [fst snd] in *. congruence.
Qed.
(** An empty name is read back as no name. *)
Theorem C72_empty_name_refuted : exists l l', Forall (fun c => nonul (match fst (fst c) with Some n => n | None => [] end)) l /\ name_read (name_write l) = Ok l' /\ l <> l'.
Proof. exists [(Some [], Some (bs "a"), None)], [(None, Some (bs "a"), None)]. split; [repeat constructor; intros []|]. split; [vm_compute; reflexivity|discriminate]. Qed.
(** A tree cache with a negative number of files other than -1 is accepted by the reader, but what is
    then written for it is refused. *)
Theorem C72_negative_count_refuted : exists s t, tree_read 20 [0] s = Ok t /\ tree_read 20 [0] (tree_write t) = Err (-1).
Proof. exists ([0] ++ bs "-2 0" ++ [10]), (TC [] (-2) (repeat 0 20) []). split; vm_compute; reflexivity. Qed.

(** An index file with its extensions. *)
Theorem C72_index_file H path_ok osz aft version es t names us :
  params_ok H osz -> 2 <= version <= 4 ->
  Forall (good path_ok osz) es -> Forall (path_fits version) es -> Forall (keeps_ext version) es -> Z.of_nat (length es) < 4294967296 ->
  (forall t0, t = Some t0 -> cache_ok osz t0) -> Forall cname_ok names -> Forall (reuc_ok osz) us -> last_has_mode us ->
  Forall (fun x => Z.of_nat (length (snd x)) < 4294967296) (extensions t names us) -> aft <> [] ->
  exists file es' exts, write_index H osz false version es (extensions t names us) = Ok file /\
    parse_index H path_ok (ext_ok osz aft) osz false file = Ok (number_of version es, mkvec es' true, exts) /\
    Forall2 saved es es' /\
    (forall t0, t = Some t0 -> exists b t', In (bs "TREE", b) exts /\ tree_read osz aft b = Ok t' /\ same_cache t0 t') /\
    (names <> [] -> exists b, In (bs "NAME", b) exts /\ name_read b = Ok names) /\
    (us <> [] -> exists b us', In (bs "REUC", b) exts /\ reuc_read osz aft b = Ok us' /\ Forall2 same_reuc us us').
Proof.
  intros PP Hv G F K Hlen Ht Hn Hu HL HS Ha. assert (Hz : (1 <= osz)%nat) by (destruct PP; lia).
  assert (GX : Forall (good_ext (ext_ok osz aft)) (extensions t names us)).
  { unfold extensions in *. rewrite !Forall_app in HS. destruct HS as (S1 & S2 & S3). rewrite !Forall_app. split; [|split].
    - destruct t as [t|]; [|constructor]. constructor; [|constructor]. inversion S1; subst. split; [reflexivity|]. split; [cbn; lia|]. split; [|assumption].
      cbn [fst snd]. unfold ext_ok. change (leqb ext_tree ext_tree) with true. destruct (C72_tree_round_trip osz aft t (Ht t eq_refl)) as (t' & -> & _). reflexivity.
    - destruct names as [|c names]; [constructor|]. constructor; [|constructor]. inversion S2; subst. split; [reflexivity|]. split; [cbn; lia|]. split; [|assumption].
      cbn [fst snd]. unfold ext_ok. change (leqb ext_name ext_tree) with false. change (leqb ext_name ext_reuc) with false. change (leqb ext_name ext_name) with true.
      rewrite (proj2 (C72_names_exact _ _) (conj Hn eq_refl)). reflexivity.
    - destruct us as [|u us]; [constructor|]. constructor; [|constructor]. inversion S3; subst. split; [reflexivity|]. split; [cbn; lia|]. split; [|assumption].
      cbn [fst snd]. unfold ext_ok. change (leqb ext_reuc ext_tree) with false. change (leqb ext_reuc ext_reuc) with true.
      destruct (C72_reuc_round_trip osz aft (u :: us) Hz Hu HL) as (us' & -> & _). reflexivity. }
  destruct (C12_roundtrip H path_ok (ext_ok osz aft) osz version es (extensions t names us) PP Hv G F K Hlen GX) as (file & es' & E1 & E2 & E3).
  exists file, es', (extensions t names us). split; [exact E1|]. split; [exact E2|]. split; [exact E3|]. split; [|split].
  - intros t0 ->. destruct (C72_tree_round_trip osz aft t0 (Ht t0 eq_refl)) as (t' & E & S). exists (tree_write t0), t'. split; [|auto]. left. reflexivity.
  - intros N. exists (name_write names). split; [|apply C72_names_exact; auto]. unfold extensions. rewrite !in_app_iff. right. left. destruct names; [congruence|]. left. reflexivity.
  - intros N. destruct (C72_reuc_round_trip osz aft us Hz Hu HL) as (us' & E & S). exists (reuc_write us), us'. split; [|auto]. unfold extensions. rewrite !in_app_iff. right. right. destruct us; [congruence|]. left. reflexivity.
Qed.

(** *** Reading any bytes *)
(** Whatever the bytes, if one more byte can be read behind them the readers end with an error or with
    well-formed contents; a tree cache has at most a fifth as many directories as there are bytes (and
    so no deeper nesting), and an entry of the others takes at least a byte. *)
Theorem C73_extensions_safe osz aft s : aft <> [] ->
  ((exists t, tree_read osz aft s = Ok t /\ cache_from (- 2 ^ 31) osz t /\ (5 * dirs t <= length s)%nat /\ (nesting t <= dirs t)%nat) \/ tree_read osz aft s = Err (-1)) /\
  ((exists l, reuc_read osz aft s = Ok l /\ Forall (reuc_ok osz) l /\ (length l <= length s)%nat) \/ reuc_read osz aft s = Err (-1)) /\
  ((exists l, name_read s = Ok l /\ Forall cname_ok l /\ s = name_write l) \/ name_read s = Err (-1)).
Proof.
  intros Ha. split; [|split].
  - unfold tree_read. destruct (tree_in_safe osz aft Ha (S (length s)) s (Nat.lt_succ_diag_r _)) as [(t & s' & -> & _ & L & C)| ->]; cbn [bindr fst snd]; [|auto].
    destruct s' as [|z s']; [|auto]. left. exists t. split; [reflexivity|]. split; [exact C|]. split; [cbn [length] in L; lia|apply nesting_dirs].
  - apply (reuc_loop_safe osz aft Ha). lia.
  - unfold name_read. destruct (name_loop_ok (S (length s)) s (Nat.lt_succ_diag_r _)) as [H|[-> _]]; auto.
Qed.
(** That further byte has no influence. *)
Theorem C73_only_the_extension osz a a' s : a <> [] -> a' <> [] -> tree_read osz a s = tree_read osz a' s /\ reuc_read osz a s = reuc_read osz a' s.
Proof. intros. split; [now apply tree_after|now apply reuc_after]. Qed.
(** Without it the readers read outside the extension. *)
Theorem C73_byte_behind_refuted : exists s, tree_read 20 [] s = UB /\ reuc_read 20 [] s = UB.
Proof. exists ([0] ++ bs "7"). split; vm_compute; reflexivity. Qed.

(** The nesting is not bounded by less than a sixth of the bytes: the reader calls itself that deep. *)
Fixpoint chain (n : nat) : tcache := match n with O => TC [] (-1) (repeat 0 20) [] | S n => TC [] (-1) (repeat 0 20) [chain n] end.
Theorem C73_deep n : exists s t, tree_read 20 [0] s = Ok t /\ length s = (6 * (n + 1))%nat /\ nesting t = (n + 1)%nat.
Proof.
  assert (G : cache_ok 20 (chain n)).
  { induction n as [|n IH]; cbn [chain]; constructor; try (intros []); try reflexivity; try (cbn [length]; lia); constructor; [exact IH|constructor]. }
  destruct (C72_tree_round_trip 20 [0] (chain n) G) as (t' & E & _). exists (tree_write (chain n)), (blank 20 (chain n)). split.
  { unfold tree_read. rewrite <- (app_nil_r (tree_write (chain n))) at 2. rewrite tree_read_write by (auto; lia). reflexivity. }
  clear. split.
  - induction n as [|n IH]; [reflexivity|]. cbn [chain]. rewrite write_len. cbn [map concat length app]. rewrite app_nil_r, IH. change (length (dec_signed (-1))) with 2%nat. change (dec 20 (Z.of_nat 1)) with [49]. change ((-1 =? -1)%Z) with true. cbn [length]. lia.
  - induction n as [|n IH]; [reflexivity|]. cbn [chain blank map nesting]. rewrite IH. cbn [list_max fold_right]. lia.
Qed.

(** *** Reachability *)
Definition ex_cache : tcache := TC [] 3 (repeat 7 20) [TC (bs "src") 2 (repeat 8 20) [TC (bs "lib") (-1) (repeat 9 20) []]; TC (bs "doc") 0 (repeat 0 20) []].
Example ixext_reach1 : cache_ok 20 ex_cache /\ tree_read 20 [5] (tree_write ex_cache) = Ok (TC [] 3 (repeat 7 20) [TC (bs "src") 2 (repeat 8 20) [TC (bs "lib") (-1) (repeat 0 20) []]; TC (bs "doc") 0 (repeat 0 20) []]).
Proof.
  split; [|vm_compute; reflexivity]. unfold cache_ok, ex_cache.
  constructor; [intros []|lia|reflexivity|cbn; lia|]. constructor; [|constructor; [|constructor]].
  - constructor; [unfold nonul; cbn; intuition lia|lia|reflexivity|cbn; lia|]. constructor; [|constructor]. constructor; [unfold nonul; cbn; intuition lia|lia|reflexivity|cbn; lia|constructor].
  - constructor; [unfold nonul; cbn; intuition lia|lia|reflexivity|cbn; lia|constructor].
Qed.
Example ixext_reach2 : let l := [mkreuc (bs "a/b") [33188; 0; 40960] [repeat 1 20; repeat 0 20; repeat 2 20]] in Forall (reuc_ok 20) l /\ last_has_mode l /\ reuc_read 20 [5] (reuc_write l) = Ok l.
Proof.
  split; [|split; [|vm_compute; reflexivity]].
  - constructor; [|constructor]. unfold reuc_ok. cbn [ru_path ru_modes ru_oids]. split; [unfold nonul; cbn; intuition lia|]. split; [reflexivity|]. split; [repeat (apply Forall_cons; [lia|]); constructor|]. split; [reflexivity|repeat constructor].
  - intros [|x pre] y E; cbn [app] in E; [|destruct pre; discriminate]. assert (Ey : mkreuc (bs "a/b") [33188; 0; 40960] [repeat 1 20; repeat 0 20; repeat 2 20] = y) by congruence. rewrite <- Ey. constructor. cbn. discriminate.
Qed.
Example ixext_reach3 : let l := [(Some (bs "base"), Some (bs "ours"), None)] in Forall cname_ok l /\ name_read (name_write l) = Ok l.
Proof. split; [|vm_compute; reflexivity]. constructor; [|constructor]. unfold cname_ok, opt_ok, nonul. cbn [fst snd]. split; [|split; [|exact I]]; (split; [cbn; intuition lia|discriminate]). Qed.
Print Assumptions C72_index_file.
Print Assumptions C73_extensions_safe.
Print Assumptions C73_deep.
