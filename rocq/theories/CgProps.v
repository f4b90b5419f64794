(** Commit-graph files: C68 (reading, and what is written is read back) and C69 (generation
    numbers). *)
From Verif Require Import Base Arr CStr OidModel OidSpec IdxFileModel PackIdxModel VectorModel CgModel CgSpec CgSafe CgRound.

(** *** C68 *)

(** Whatever bytes the file has, up to 40 GiB: opening it gives a graph or the error for invalid
    files; looking up any id or prefix and following any parent of any entry so obtained gives
    an ordinary outcome. *)
Theorem C68_any_file_safe : forall data, bytes data -> Z.of_nat (length data) < 42949672960 ->
  ordinary (cg_parse 20 data) /\
  forall f, cg_parse 20 data = Ok f ->
    (forall q len, oid_ok 20 q -> (len <= 40)%nat -> ordinary (cg_find f q len)) /\
    (forall e n, entry_of f e -> 0 <= n -> ordinary (cg_parent f e n)).
Proof.
  intros data Hb Hl. pose proof (parse_good data Hb) as Hp. split.
  - destruct (cg_parse 20 data) as [f|e| |]; cbn [ordinary]; auto.
  - intros f Ef. rewrite Ef in Hp. destruct Hp as [Hg Ed]. rewrite <- Ed in Hl. split.
    + intros q len Hq Hlen. pose proof (cg_find_safe f q len Hg Hl Hq Hlen) as H. destruct (cg_find f q len); cbn [ordinary]; tauto.
    + intros e n He Hn. pose proof (parent_safe f e n Hg (entry_sound f e Hg Hl He) Hn) as H. destruct (cg_parent f e n); cbn [ordinary]; tauto.
Qed.

(** What is written is read back: the file parses, its checksum is right, every commit is found
    by its id with its tree, time and parents, and every abbreviated id is answered as the
    commits demand.  [H] is the hash function; [MISSING_PARENT] is the largest
    position the format can hold. *)
Theorem C68_round_trip : forall H commits, (forall b, length (H b) = 20%nat /\ bytes (H b)) ->
  commits_ok commits -> closed commits -> commits <> [] -> Z.of_nat (length commits) < MISSING_PARENT -> extra_edges commits < 2147483648 ->
  exists data f, cg_write H commits = Ok data /\ cg_parse 20 data = Ok f /\ cg_validate H f = Ok tt /\ answers f commits.
Proof.
  intros H commits HH Hok Hcl Hne Hl He. destruct (round_trip H commits HH Hok Hcl Hne) as [(data & f & H1 & H2 & H3 & H4 & _)|[_ Hge]]; auto.
  - exists data, f. auto.
  - unfold MISSING_PARENT in Hl. lia.
Qed.
(** A parent that is not among the commits makes writing fail with GIT_ENOTFOUND. *)
Theorem C68_missing_parent : forall H commits, commits_ok commits -> ~ closed commits -> Z.of_nat (length commits) < 8589934592 -> cg_write H commits = Err (-3).
Proof. intros H commits Hok Hn Hl. destruct (missing_parent H commits Hok Hn) as [E|[_ Hge]]; [exact E|lia]. Qed.

(** A damaged file is detected: if the checksum in the last bytes is not that of the rest. *)
Theorem C68_validate_detects : forall H f, (forall b, length (H b) = 20%nat) -> c_osz f = 20 -> length (c_sum f) = 20%nat -> 20 <= Z.of_nat (length (c_data f)) ->
  (cg_validate H f = Ok tt <-> H (firstn (length (c_data f) - 20) (c_data f)) = c_sum f) /\ (cg_validate H f <> Ok tt -> cg_validate H f = Err (-1)).
Proof.
  intros H f HH Ho Ls Hd. unfold cg_validate. cbv zeta. rewrite Ho. destruct (Z.ltb_spec (Z.of_nat (length (c_data f))) 20); [lia|].
  replace (Z.to_nat (Z.of_nat (length (c_data f)) - 20)) with (length (c_data f) - 20)%nat by lia. set (h := H _). assert (Lh : length h = 20%nat) by apply HH.
  destruct (memcmp_lex h (c_sum f)) as (z & E & Hz); [congruence|]. rewrite Lh in E. change (Z.to_nat 20) with 20%nat. rewrite E. cbn [bindr].
  destruct (Z.eqb_spec z 0) as [->|Hz0]; cbn [negb].
  - split; [|congruence]. split; [|reflexivity]. intros _. apply lex_eq. destruct (lex h (c_sum f)); [reflexivity|discriminate|discriminate].
  - split; [|reflexivity]. split; [discriminate|]. intros Eq. rewrite <- Eq, lex_refl in Hz. destruct z; [congruence|discriminate|discriminate].
Qed.

(** Refuted in part: in a SHA-256 repository every file with a good header and enough bytes makes
    the reader write 32 bytes to a buffer of 20. *)
Theorem C68_sha256_refuted : forall n t, 0 < n < 256 -> 8 + (1 + n) * 12 + 32 <= 8 + Z.of_nat (length t) ->
  cg_parse 32 ([67; 71; 80; 72; 1; 1; n; 0] ++ t) = UB.
Proof.
  intros n t Hn Hl. unfold cg_parse. rewrite app_length. change (length [67; 71; 80; 72; 1; 1; n; 0]) with 8%nat. rewrite Nat2Z.inj_add. change (Z.of_nat 8) with 8. cbv zeta.
  destruct (Z.ltb_spec (8 + Z.of_nat (length t)) (8 + 32)); [lia|].
  assert (E0 : rd32 ([67; 71; 80; 72; 1; 1; n; 0] ++ t) 0 = Ok CG_SIG).
  { unfold rd32, rdn. change (Z.to_nat 0) with 0%nat. destruct (Nat.leb_spec (0 + 4) (length ([67; 71; 80; 72; 1; 1; n; 0] ++ t))) as [_|L]; [|rewrite app_length in L; cbn in L; lia]. reflexivity. }
  rewrite E0. cbn [bindr app]. change (rd (67 :: 71 :: 80 :: 72 :: 1 :: 1 :: n :: 0 :: t) 4) with (@Ok Z 1). change (rd (67 :: 71 :: 80 :: 72 :: 1 :: 1 :: n :: 0 :: t) 5) with (@Ok Z 1).
  change (rd (67 :: 71 :: 80 :: 72 :: 1 :: 1 :: n :: 0 :: t) 6) with (@Ok Z n). cbn [bindr]. change (negb (CG_SIG =? CG_SIG) || negb (1 =? 1) || negb (1 =? 1)) with false. cbv iota.
  destruct (Z.eqb_spec n 0); [lia|]. destruct (Z.ltb_spec (8 + Z.of_nat (length t) - 32) (8 + (1 + n) * 12)); [lia|]. reflexivity.
Qed.
(** Refuted in part: the file of a writer without commits is refused by the reader. *)
Theorem C68_empty_refuted : forall H, (forall b, length (H b) = 20%nat) -> exists data, cg_write H [] = Ok data /\ cg_parse 20 data = Err (-1).
Proof.
  intros H HH. unfold cg_write. change (vsort pc_cmp (fold_left vinsert [] vinit)) with (Ok (@vinit pcommit)). cbn [bindr].
  change (vuniq pc_cmp vinit) with (Ok (@vinit pcommit)). cbn [bindr]. change (items (@vinit pcommit)) with (@nil pcommit). cbn [parent_indices bindr].
  change (generations []) with (Ok (@nil Z)). cbn [bindr tables]. set (body := cg_body _ _ _ _). eexists. split; [reflexivity|].
  specialize (HH body). destruct (H body) as [|a0 [|a1 [|a2 [|a3 [|a4 [|a5 [|a6 [|a7 [|a8 [|a9 [|b0 [|b1 [|b2 [|b3 [|b4 [|b5 [|b6 [|b7 [|b8 [|b9 [|x r]]]]]]]]]]]]]]]]]]]]]; try discriminate.
  subst body. vm_compute. reflexivity.
Qed.

(** A small history: a root, two commits on it, and a merge of the two and the root. *)
Definition cid (x : Z) : list Z := x :: repeat 7 19.
Definition demo : list pcommit :=
  [mkpc (cid 4) (cid 14) 1004 [cid 3; cid 2; cid 1]; mkpc (cid 2) (cid 12) 1002 [cid 1];
   mkpc (cid 1) (cid 11) 1001 []; mkpc (cid 3) (cid 13) 17179869183 [cid 1]; mkpc (cid 2) (cid 12) 1002 [cid 1]].
Definition zero_hash (b : list Z) : list Z := repeat 0 20.
Example demo_ok : commits_ok demo /\ closed demo /\ demo <> [] /\ Z.of_nat (length demo) < MISSING_PARENT /\ extra_edges demo < 2147483648 /\
  (forall b, length (zero_hash b) = 20%nat /\ bytes (zero_hash b)).
Proof.
  assert (O : forall x, 0 < x < 256 -> oid_ok 20 (cid x) /\ cid x <> repeat 0 20).
  { intros x Hx. split; [split; [reflexivity|]|unfold cid; cbn; congruence]. unfold cid. cbn [repeat]. repeat (constructor; [unfold is_byte; lia|]). constructor. }
  split; [split|].
  - unfold demo. repeat (constructor; [cbn [k_id k_tree k_time]; split; [apply O; lia|split; [apply O; lia|split; [apply O; lia|lia]]]|]). constructor.
  - intros a b Ha Hb. unfold demo in *. cbn [In] in *. repeat (destruct Ha as [<-|Ha]; [repeat (destruct Hb as [<-|Hb]; [cbn; intros; first [reflexivity|discriminate]|]); destruct Hb|]). destruct Ha.
  - split; [|split; [discriminate|split; [reflexivity|split; [reflexivity|]]]].
    + intros c p Hc Hp. assert (In p (map k_id demo)) as K.
      { unfold demo in Hc. cbn [In] in Hc. repeat (destruct Hc as [<-|Hc]; [cbn [k_parents In] in Hp; repeat (destruct Hp as [<-|Hp]; [cbn; tauto|]); destruct Hp|]). destruct Hc. }
      apply in_map_iff in K as (d & <- & Hd). exists d. auto.
    + intros b. split; [reflexivity|]. unfold zero_hash. cbn [repeat]. repeat (constructor; [unfold is_byte; lia|]). constructor.
Qed.
Example demo_read : exists data f, cg_write zero_hash demo = Ok data /\ cg_parse 20 data = Ok f /\
  (exists e, cg_find f (cid 4) 40 = Ok e /\ e_count e = 3 /\ (exists p, cg_parent f e 2 = Ok p /\ e_id p = cid 1)) /\
  (exists e, cg_find f (3 :: repeat 0 19) 2 = Ok e /\ e_time e = 17179869183) /\
  cg_find f (repeat 0 20) 1 = Err (-5) /\ cg_find f (5 :: repeat 0 19) 2 = Err (-3).
Proof.
  destruct (cg_write zero_hash demo) as [data| | |] eqn:Ew; [|vm_compute in Ew; discriminate..]. exists data. destruct (cg_parse 20 data) as [f| | |] eqn:Ep;
    [|vm_compute in Ew; injection Ew as <-; vm_compute in Ep; discriminate..]. exists f. vm_compute in Ew. injection Ew as <-. vm_compute in Ep. injection Ep as <-.
  split; [reflexivity|]. split; [reflexivity|]. split; [eexists; split; [vm_compute; reflexivity|]; split; [reflexivity|]; eexists; split; vm_compute; reflexivity|].
  split; [eexists; split; vm_compute; reflexivity|]. split; vm_compute; reflexivity.
Qed.
Example demo_missing : commits_ok [mkpc (cid 4) (cid 14) 1004 [cid 3]] /\ ~ closed [mkpc (cid 4) (cid 14) 1004 [cid 3]].
Proof.
  split; [split|].
  - destruct demo_ok as [[F _] _]. inversion_clear F as [|? ? Hc _]. constructor; [exact Hc|constructor].
  - intros a b [<-|[]] [<-|[]] _. reflexivity.
  - intros Hcl. destruct (Hcl _ (cid 3) (or_introl eq_refl) (or_introl eq_refl)) as (d & [<-|[]] & E). discriminate.
Qed.
(** Refuted in part: times before 1970 or from the year 2514 on come back as other times. *)
Theorem C68_times_refuted : forall t, t = -1 \/ t = 17179869184 ->
  exists data f e, cg_write zero_hash [mkpc (cid 1) (cid 2) t []] = Ok data /\ cg_parse 20 data = Ok f /\ cg_find f (cid 1) 40 = Ok e /\ e_time e <> t.
Proof.
  intros t [->| ->].
  all: match goal with |- exists data f e, ?w = _ /\ _ => destruct w as [data| | |] eqn:Ew; [|vm_compute in Ew; discriminate..] end;
    exists data; destruct (cg_parse 20 data) as [f| | |] eqn:Ep; [|vm_compute in Ew; injection Ew as <-; vm_compute in Ep; discriminate..]; exists f; vm_compute in Ew; injection Ew as <-; vm_compute in Ep; injection Ep as <-;
    eexists; split; [reflexivity|]; split; [reflexivity|]; split; [vm_compute; reflexivity|]; vm_compute; discriminate.
Qed.

(** *** C69 *)

(** The generation number of every commit in a written file is at least 1 and at most the
    generation of the commit; without merges it is the generation. *)
Theorem C69_generation_partial : forall H commits data f, (forall b, length (H b) = 20%nat /\ bytes (H b)) ->
  commits_ok commits -> closed commits -> commits <> [] -> Z.of_nat (length commits) < MISSING_PARENT -> extra_edges commits < 2147483648 ->
  cg_write H commits = Ok data -> cg_parse 20 data = Ok f -> gen_sound f commits.
Proof.
  intros H commits data f HH Hok Hcl Hne Hl He Hw Hp. destruct (round_trip H commits HH Hok Hcl Hne Hl He) as [(data' & f' & H1 & H2 & _ & _ & H5)|[Hu _]].
  - rewrite H1 in Hw. injection Hw as ->. rewrite H2 in Hp. injection Hp as ->. exact H5.
  - rewrite Hu in Hw. discriminate.
Qed.
(** Refuted for merges: a merge of X and of a child Y of X; Y gets the generation of a root, not
    more than its parent's. *)
Definition merge_history : list pcommit := [mkpc (cid 1) (cid 11) 1 []; mkpc (cid 2) (cid 12) 2 [cid 1]; mkpc (cid 3) (cid 13) 3 [cid 1; cid 2]].
Definition merge_gens (id : list Z) : Z := hd 0 id.
Theorem C69_generation_refuted : commits_ok merge_history /\ closed merge_history /\ generation_of merge_history merge_gens /\
  exists data f x y, cg_write zero_hash merge_history = Ok data /\ cg_parse 20 data = Ok f /\
    cg_find f (cid 1) 40 = Ok x /\ cg_find f (cid 2) 40 = Ok y /\ cg_parent f y 0 = Ok x /\ e_gen y <= e_gen x /\ e_gen y <> merge_gens (cid 2).
Proof.
  assert (O : forall x, 0 < x < 256 -> oid_ok 20 (cid x) /\ cid x <> repeat 0 20).
  { intros x Hx. split; [split; [reflexivity|]|unfold cid; cbn; congruence]. unfold cid. cbn [repeat]. repeat (constructor; [unfold is_byte; lia|]). constructor. }
  split; [split|split; [|split]].
  - unfold merge_history. repeat (constructor; [cbn [k_id k_tree k_time]; split; [apply O; lia|split; [apply O; lia|split; [apply O; lia|lia]]]|]). constructor.
  - intros a b Ha Hb. unfold merge_history in *. cbn [In] in *. repeat (destruct Ha as [<-|Ha]; [repeat (destruct Hb as [<-|Hb]; [cbn; intros; first [reflexivity|discriminate]|]); destruct Hb|]). destruct Ha.
  - intros c p Hc Hp. assert (In p (map k_id merge_history)) as K.
    { unfold merge_history in Hc. cbn [In] in Hc. repeat (destruct Hc as [<-|Hc]; [cbn [k_parents In] in Hp; repeat (destruct Hp as [<-|Hp]; [cbn; tauto|]); destruct Hp|]). destruct Hc. }
    apply in_map_iff in K as (d & <- & Hd). exists d. auto.
  - intros c Hc. unfold merge_history in Hc. cbn [In] in Hc. repeat (destruct Hc as [<-|Hc]; [split; reflexivity|]). destruct Hc.
  - destruct (cg_write zero_hash merge_history) as [data| | |] eqn:Ew; [|vm_compute in Ew; discriminate..]. exists data. destruct (cg_parse 20 data) as [f| | |] eqn:Ep;
      [|vm_compute in Ew; injection Ew as <-; vm_compute in Ep; discriminate..]. exists f. vm_compute in Ew. injection Ew as <-. vm_compute in Ep. injection Ep as <-.
    eexists. eexists. split; [reflexivity|]. split; [reflexivity|]. split; [vm_compute; reflexivity|]. split; [vm_compute; reflexivity|]. split; [vm_compute; reflexivity|]. split; vm_compute; congruence.
Qed.
(** A history without merges. *)
Definition line_history : list pcommit := [mkpc (cid 1) (cid 11) 1 []; mkpc (cid 3) (cid 13) 3 [cid 2]; mkpc (cid 2) (cid 12) 2 [cid 1]].
Example line_ok : generation_of line_history merge_gens /\ (forall d, In d line_history -> merge_gens (k_id d) <= GEN_MAX) /\ (forall d, In d line_history -> (length (k_parents d) <= 1)%nat) /\
  exists data f e, cg_write zero_hash line_history = Ok data /\ cg_parse 20 data = Ok f /\ cg_find f (cid 3) 40 = Ok e /\ e_gen e = 3.
Proof.
  split; [|split; [|split]].
  - intros c Hc. unfold line_history in Hc. cbn [In] in Hc. repeat (destruct Hc as [<-|Hc]; [split; reflexivity|]). destruct Hc.
  - intros c Hc. unfold line_history in Hc. cbn [In] in Hc. repeat (destruct Hc as [<-|Hc]; [vm_compute; discriminate|]). destruct Hc.
  - intros c Hc. unfold line_history in Hc. cbn [In] in Hc. repeat (destruct Hc as [<-|Hc]; [cbn; lia|]). destruct Hc.
  - destruct (cg_write zero_hash line_history) as [data| | |] eqn:Ew; [|vm_compute in Ew; discriminate..]. exists data. destruct (cg_parse 20 data) as [f| | |] eqn:Ep;
      [|vm_compute in Ew; injection Ew as <-; vm_compute in Ep; discriminate..]. exists f. vm_compute in Ew. injection Ew as <-. vm_compute in Ep. injection Ep as <-.
    eexists. split; [reflexivity|]. split; [reflexivity|]. split; vm_compute; reflexivity.
Qed.
