(** The component checks together, and the loop over a path. *)
From Verif Require Import Base Str WildModel Utf8Model Utf8Spec Utf8Props PathModel PathSpec PathProofs.

(** *** The literal check *)

Lemma lower1_eq c l : 97 <= l <= 122 -> (lower1 c = l <-> c = l \/ c = l - 32).
Proof. intros H. unfold lower1. destruct ((65 <=? c) && (c <=? 90)) eqn:E; lia. Qed.
Lemma lower1_other c l : (l < 65 \/ 122 < l \/ 90 < l < 97) -> (lower1 c = l <-> c = l).
Proof. intros H. unfold lower1. destruct ((65 <=? c) && (c <=? 90)) eqn:E; lia. Qed.

Lemma looks_dotgit_spec s j len : cstr s -> (len <= length s)%nat ->
  exists r, looks_dotgit (s ++ 0 :: j) len = Ok r /\ (r = true <-> (4 <= len)%nat /\ lower (firstn 4 s) = bs ".git").
Proof.
  intros Hs Hl. unfold looks_dotgit. destruct (Nat.ltb_spec len 4) as [H|H].
  - exists false. split; [reflexivity|]. split; [discriminate|lia].
  - rewrite !rd_str' by lia. cbn [bindr]. eexists. split; [reflexivity|].
    do 4 (destruct s as [|? s]; [cbn in Hl; lia|]). cbn [nth firstn lower map bs ch].
    change (ch ".") with 46; change (ch "g") with 103; change (ch "i") with 105; change (ch "t") with 116.
    split.
    + intros E. split; [exact H|]. f_equal; [|f_equal; [|f_equal; [|f_equal]]].
      * apply lower1_other; lia.
      * apply lower1_eq; lia.
      * apply lower1_eq; lia.
      * apply lower1_eq; lia.
    + intros [_ E]. injection E as E1 E2 E3 E4. assert (E1' := proj1 (lower1_other _ 46 ltac:(lia)) E1). apply lower1_eq in E2; [|lia]. apply lower1_eq in E3; [|lia]. apply lower1_eq in E4; [|lia]. lia.
Qed.

Lemma common_prefix_spec s j p : cstr s -> Forall (fun c => 0 < c < 256) p -> forall len, (len <= length s)%nat ->
  exists k, common_prefix_icase (s ++ 0 :: j) len (p ++ [0]) = Ok k /\ (k <= len)%nat /\
    (k = len <-> starts_with (lower (firstn len s)) (lower p)).
Proof.
  intros Hs. revert p. induction Hs as [|x s Hx Hs IH]; intros p Hp len Hl.
  - destruct len; [|cbn in Hl; lia]. exists O. split; [reflexivity|]. split; [lia|]. split; [intros _|reflexivity]. exists (lower p). reflexivity.
  - destruct len as [|len]. { exists O. split; [reflexivity|]. split; [lia|]. split; [intros _|reflexivity]. exists (lower p). reflexivity. }
    cbn [common_prefix_icase app firstn lower map]. destruct p as [|y p]; cbn [app].
    + rewrite (gtolower_byte x) by lia. change (gtolower 0) with 0. destruct (Z.eqb_spec (lower1 x) 0) as [E|E].
      { exfalso. unfold lower1 in E. destruct ((65 <=? x) && (x <=? 90)) eqn:X; lia. }
      exists O. split; [reflexivity|]. split; [lia|]. split; [lia|]. intros [v Ev]. discriminate.
    + inv Hp. rewrite (gtolower_byte x), (gtolower_byte y) by lia. destruct (Z.eqb_spec (lower1 x) (lower1 y)) as [E|E].
      * destruct (IH p H2 len ltac:(cbn in Hl; lia)) as (k & Ek & Hk & K). rewrite Ek. cbn [bindr]. exists (S k). split; [reflexivity|]. split; [lia|].
        rewrite E. split.
        -- intros X. assert (k = len) by lia. apply K in H. destruct H as [v Ev]. exists v. cbn [map lower]. fold (lower p). rewrite Ev. reflexivity.
        -- intros [v Ev]. f_equal. apply K. exists v. cbn in Ev. injection Ev as Ev. exact Ev.
      * exists O. split; [reflexivity|]. split; [lia|]. split; [lia|]. intros [v Ev]. cbn in Ev. congruence.
Qed.

(** *** DOS device names *)

Definition dos_device (c : list Z) : Prop :=
  exists b t, c = b ++ t /\ (t = [] \/ exists x t', t = x :: t' /\ (x = 46 \/ x = 58)) /\
   (lower b = bs "con" \/ lower b = bs "prn" \/ lower b = bs "aux" \/ lower b = bs "nul" \/
    exists d, 49 <= d <= 57 /\ (lower b = bs "com" ++ [d] \/ lower b = bs "lpt" ++ [d])).

Definition dos_plain (name c : list Z) : Prop := exists b t, c = b ++ t /\ (t = [] \/ exists x t', t = x :: t' /\ (x = 46 \/ x = 58)) /\ lower b = name.
Definition dos_num (name c : list Z) : Prop := exists d, 49 <= d <= 57 /\ dos_plain (name ++ [d]) c.

Lemma nth_firstn (i n : nat) (s : list Z) : (i < n)%nat -> nth i (firstn n s) 0 = nth i s 0.
Proof.
  revert n s. induction i as [|i IH]; intros [|n] [|x s] H; cbn; try lia; auto. apply IH. lia.
Qed.

Lemma validate_dospath_spec s j len dos num : cstr s -> (len <= length s)%nat -> length dos = 3%nat -> Forall (fun c => lower1 c <> 0) dos ->
  exists r, validate_dospath (s ++ 0 :: j) len dos num = Ok r /\
    (r = false <-> if num then dos_num (lower dos) (firstn len s) else dos_plain (lower dos) (firstn len s)).
Proof.
  intros Hs Hl Ld Zd. unfold validate_dospath. set (last := if num then 4%nat else 3%nat). set (c := firstn len s).
  assert (Lc : length c = len) by (unfold c; rewrite firstn_length; lia).
  assert (Inv : forall name, dos_plain name c -> (length name <= len)%nat /\ lower (firstn (length name) s) = name /\
                 ((length name < len)%nat -> nth (length name) s 0 = 46 \/ nth (length name) s 0 = 58)).
  { intros name (b & t & Ec & Ht & El). assert (Lb : length b = length name) by (rewrite <- El, lower_length; reflexivity).
    assert (Ln : (length name <= len)%nat) by (rewrite <- Lc, Ec, app_length; lia). split; [exact Ln|]. split.
    - rewrite <- El, lower_length. f_equal. transitivity (firstn (length b) c); [unfold c; rewrite firstn_firstn; f_equal; lia|]. rewrite Ec. apply firstn_len_app. reflexivity.
    - intros Hlt. rewrite <- (nth_firstn (length name) len s Hlt). fold c. rewrite Ec. destruct Ht as [->|(x & t' & -> & Hx)].
      + rewrite Ec, app_nil_r in Lc. lia.
      + rewrite app_nth2, Lb, Nat.sub_diag by lia. exact Hx. }
  assert (Mk : forall k name, length name = k -> (k <= len)%nat -> lower (firstn k s) = name ->
      ((k < len)%nat -> nth k s 0 = 46 \/ nth k s 0 = 58) -> dos_plain name c).
  { intros k name Ln Hk El Hn. exists (firstn k s), (skipn k c). split.
    - rewrite <- (firstn_skipn k c) at 1. f_equal. unfold c. rewrite firstn_firstn. f_equal. lia.
    - split; [|exact El]. destruct (Nat.eq_dec k len) as [->|Nk].
      + left. apply skipn_all2. lia.
      + right. rewrite (skipn_cons k c) by lia. exists (nth k c 0), (skipn (S k) c). split; [reflexivity|].
        unfold c at 1 2. rewrite nth_firstn by lia. apply Hn. lia. }
  destruct (Nat.ltb_spec len last) as [Hlt|Hge].
  - exists true. split; [reflexivity|]. split; [discriminate|]. intros X. exfalso. destruct num; cbn in last.
    + destruct X as (d & _ & X). apply Inv in X. rewrite app_length, lower_length, Ld in X. unfold last in Hlt. cbn in X. lia.
    + apply Inv in X. rewrite lower_length, Ld in X. unfold last in Hlt. lia.
  - destruct (ncase_eq_spec s j Hs dos 3 ltac:(lia) Zd) as (e & -> & E). cbn [bindr]. rewrite (firstn_all2 dos) in E by lia.
    assert (Hlast : (3 <= last <= len)%nat) by (unfold last in *; destruct num; lia). destruct e.
    + assert (E3 := proj1 E eq_refl). destruct num; unfold last in *.
      * rewrite rd_str' by lia. cbn [bindr]. set (d := nth 3 s 0).
        assert (E4 : forall x, lower (firstn 4 s) = lower dos ++ [x] <-> lower1 d = x).
        { intros x. assert (E4 : firstn 4 s = firstn 3 s ++ [d]) by (unfold d; clear -Hl Hlast; do 4 (destruct s as [|? s]; [cbn in Hl; lia|]); reflexivity).
          rewrite E4, lower_app, E3. split; [intros X; apply app_inv_head in X; injection X as X; exact X|intros <-; reflexivity]. }
        assert (L4 : forall x, length (lower dos ++ [x]) = 4%nat) by (intros; rewrite app_length, lower_length, Ld; reflexivity).
        destruct ((d <? 49) || (57 <? d)) eqn:D.
        -- exists true. split; [reflexivity|]. split; [discriminate|]. intros (x & Hx & X). apply Inv in X. rewrite L4 in X. destruct X as (_ & X & _).
           apply E4 in X. assert (Y := proj1 (lower1_digit d) ltac:(lia)). rewrite lower1_id in X by exact Y. lia.
        -- assert (Hd : lower1 d = d) by (apply lower1_id; lia).
           destruct (Nat.ltb_spec 4 len) as [H4|H4].
           ++ rewrite rd_str' by lia. cbn [bindr]. eexists. split; [reflexivity|]. split.
              ** intros X. exists d. split; [lia|]. apply (Mk 4%nat); [apply L4|lia|apply E4; exact Hd|lia].
              ** intros (x & Hx & X). apply Inv in X. rewrite L4 in X. destruct X as (_ & _ & X). specialize (X H4). lia.
           ++ exists false. split; [reflexivity|]. split; [intros _|reflexivity]. exists d. split; [lia|]. apply (Mk 4%nat); [apply L4|lia|apply E4; exact Hd|lia].
      * cbn [bindr]. assert (L3 : length (lower dos) = 3%nat) by (rewrite lower_length; exact Ld).
        destruct (Nat.ltb_spec 3 len) as [H3|H3].
        -- rewrite rd_str' by lia. cbn [bindr]. eexists. split; [reflexivity|]. split.
           ++ intros X. apply (Mk 3%nat); [exact L3|lia|exact E3|lia].
           ++ intros X. apply Inv in X. rewrite L3 in X. destruct X as (_ & _ & X). specialize (X H3). lia.
        -- exists false. split; [reflexivity|]. split; [intros _|reflexivity]. apply (Mk 3%nat); [exact L3|lia|exact E3|lia].
    + exists true. split; [reflexivity|]. split; [discriminate|]. intros X. exfalso.
      assert (N3 : lower (firstn 3 s) <> lower dos) by (intros Y; apply E in Y; discriminate). apply N3. destruct num.
      * destruct X as (d & _ & X). apply Inv in X. destruct X as (_ & X & _). rewrite app_length, lower_length, Ld in X. cbn [Nat.add length] in X.
        transitivity (firstn 3 (lower (firstn 4 s))); [rewrite <- lower_firstn, firstn_firstn; reflexivity|]. rewrite X.
        rewrite firstn_app, lower_length, Ld. change (3 - 3)%nat with O. rewrite firstn_O, app_nil_r. apply firstn_all2. rewrite lower_length. lia.
      * apply Inv in X. destruct X as (_ & X & _). rewrite lower_length, Ld in X. exact X.
Qed.

(** *** What is wrong with a component, by flag *)

Definition on (flags k : Z) : Prop := Z.testbit flags k = true.

Definition fault_fs (flags : Z) (c : list Z) : Prop :=
  (on flags F_EMPTY /\ c = []) \/
  (on flags F_TRAVERSAL /\ (c = bs "." \/ c = bs "..")) \/
  (on flags F_TRAILING_DOT /\ ends_with [46] c) \/
  (on flags F_TRAILING_SPACE /\ ends_with [32] c) \/
  (on flags F_TRAILING_COLON /\ ends_with [58] c) \/
  (on flags F_DOS_PATHS /\ dos_device c).

Definition fault_repo (flags : Z) (link : bool) (s c : list Z) : Prop :=
  (on flags F_HFS /\ (hfs_seen (bs ".git") c \/ link = true /\ hfs_seen (bs ".gitmodules") c)) \/
  (on flags F_NTFS /\ (ntfs_dotgit c \/ link = true /\ ntfs_gitfile (bs "gitmodules") (bs "gi7eba") s)) \/
  (~ on flags F_HFS /\ ~ on flags F_NTFS /\ on flags F_LITERAL /\
     (lower c = bs ".git" \/ link = true /\ (4 < length c)%nat /\ starts_with (lower c) (bs ".gitmodules"))).

Lemma guard_spec b chk k (P Q : Prop) : (exists r, chk = Ok r /\ (r = false <-> P)) -> (exists r, k = Ok r /\ (r = false <-> Q)) ->
  exists r, guard b chk k = Ok r /\ (r = false <-> (b = true /\ P) \/ Q).
Proof.
  intros (r & -> & R) (r' & -> & R'). unfold guard. destruct b; cbn [bindr].
  - destruct r.
    + exists r'. split; [reflexivity|]. rewrite R'. split; [tauto|]. intros [[_ X]|X]; [apply R in X; discriminate|exact X].
    + exists false. split; [reflexivity|]. split; [intros _; left; split; [reflexivity|apply R; reflexivity]|reflexivity].
  - exists r'. split; [reflexivity|]. rewrite R'. split; [tauto|]. intros [[X _]|X]; [discriminate|exact X].
Qed.

Lemma validate_component_spec s j len flags : cstr s -> (len <= length s)%nat ->
  exists r, validate_component (s ++ 0 :: j) len flags = Ok r /\ (r = false <-> fault_fs flags (firstn len s)).
Proof.
  intros Hs Hl. unfold validate_component. set (c := firstn len s). assert (Lc : length c = len) by (unfold c; rewrite firstn_length; lia).
  assert (Nc : forall i, (i < len)%nat -> nth i s 0 = nth i c 0) by (intros i Hi; unfold c; rewrite nth_firstn by exact Hi; reflexivity).
  assert (LN : forall n, nth n c 0 = nth n c 0) by reflexivity.
  destruct (Nat.eqb_spec len 0) as [->|Hn].
  - assert (c = []) by (destruct c; [reflexivity|discriminate]). exists (negb (has flags F_EMPTY)). split; [reflexivity|].
    rewrite negb_false_iff. unfold fault_fs, on, has. rewrite H. split; [tauto|].
    intros [X|[[_ [X|X]]|[[_ X]|[[_ X]|[[_ X]|[_ X]]]]]]; try discriminate; try (destruct X as [u X]; destruct u; discriminate); [tauto|].
    exfalso. destruct X as (b & t & Eb & _ & X). symmetry in Eb. apply app_eq_nil in Eb. destruct Eb as [-> _]. cbn in X.
    destruct X as [X|[X|[X|[X|(d & _ & [X|X])]]]]; discriminate.
  - rewrite !(rd_str' s j) by lia. cbn [bindr]. rewrite !Nc by lia.
    assert (E1 : c = bs "." <-> len = 1%nat /\ nth 0 c 0 = 46).
    { split; [intros E; rewrite E in *; cbn in Lc; subst; auto|]. intros [-> E]. destruct c as [|x [|y c']]; try discriminate. cbn in E. subst. reflexivity. }
    assert (E2 : c = bs ".." <-> len = 2%nat /\ nth 0 c 0 = 46 /\ nth 1 c 0 = 46).
    { split; [intros E; rewrite E in *; cbn in Lc; subst; auto|]. intros [-> [E E']]. destruct c as [|x [|y [|z c']]]; try discriminate. cbn in E, E'. subst. reflexivity. }
    assert (EZ : forall x, ends_with [x] c <-> nth (len - 1) c 0 = x).
    { intros x. rewrite <- Lc. destruct (exists_last (l := c)) as [u [y E]]; [intros E; rewrite E in Lc; cbn in Lc; lia|]. rewrite E, app_length. cbn [length].
      replace (length u + 1 - 1)%nat with (length u) by lia. rewrite app_nth2, Nat.sub_diag by lia. cbn [nth]. split.
      - intros [v Ev]. apply app_inj_tail in Ev. tauto.
      - intros ->. exists u. reflexivity. }
    assert (NE : c <> []) by (intros E; rewrite E in Lc; cbn in Lc; lia).
    unfold fault_fs. setoid_rewrite E1. setoid_rewrite E2. setoid_rewrite EZ. unfold on, has.
    assert (D : forall dos, length dos = 3%nat -> Forall (fun c => lower1 c <> 0) dos -> forall num, _) by exact (fun dos L Z num => validate_dospath_spec s j len dos num Hs Hl L Z).
    fold c in D.
    clearbody c.
    generalize (Z.testbit flags F_TRAVERSAL), (Z.testbit flags F_TRAILING_DOT), (Z.testbit flags F_TRAILING_SPACE), (Z.testbit flags F_TRAILING_COLON), (Z.testbit flags F_DOS_PATHS), (Z.testbit flags F_EMPTY). intros bt bd bsp bc bdos be.
    destruct (bt && (len =? 1)%nat && (nth 0 c 0 =? 46)) eqn:T1.
    { exists false. split; [reflexivity|]. split; [intros _|reflexivity]. right. left. apply andb_prop in T1 as [T1 T1c]. apply andb_prop in T1 as [T1 T1b]. split; [exact T1|]. left. split; [apply Nat.eqb_eq; exact T1b|apply Z.eqb_eq; exact T1c]. }
    assert (T2 : exists dd, (if bt && (len =? 2)%nat && (nth 0 c 0 =? 46) then Ok (nth 1 s 0 =? 46) else Ok false) = Ok dd /\
                (dd = true <-> bt = true /\ len = 2%nat /\ nth 0 c 0 = 46 /\ nth 1 c 0 = 46)).
    { destruct (bt && (len =? 2)%nat && (nth 0 c 0 =? 46)) eqn:T2.
      - rewrite Nc by lia. eexists. split; [reflexivity|]. clear -T2. apply andb_prop in T2 as [T2 Tc]. apply andb_prop in T2 as [T2 Tb]. apply Nat.eqb_eq in Tb. apply Z.eqb_eq in Tc. rewrite Z.eqb_eq. tauto.
      - exists false. split; [reflexivity|]. split; [discriminate|]. intros (X1 & X2 & X3 & _). rewrite X1, X2, X3 in T2. discriminate. }
    destruct T2 as (dd & -> & T2). cbn [bindr]. destruct dd.
    { exists false. split; [reflexivity|]. split; [intros _|reflexivity]. right. left. destruct (proj1 T2 eq_refl) as (X & Y). tauto. }
    rewrite ?(Nc (len - 1)%nat) by lia. set (z := nth (len - 1) c 0) in *.
    destruct (bd && (z =? 46)) eqn:T3.
    { exists false. split; [reflexivity|]. split; [intros _|reflexivity]. do 2 right. left. apply andb_prop in T3 as [Ta Tb]. split; [exact Ta|apply Z.eqb_eq; exact Tb]. }
    destruct (bsp && (z =? 32)) eqn:T4.
    { exists false. split; [reflexivity|]. split; [intros _|reflexivity]. do 3 right. left. apply andb_prop in T4 as [Ta Tb]. split; [exact Ta|apply Z.eqb_eq; exact Tb]. }
    destruct (bc && (z =? 58)) eqn:T5.
    { exists false. split; [reflexivity|]. split; [intros _|reflexivity]. do 4 right. left. apply andb_prop in T5 as [Ta Tb]. split; [exact Ta|apply Z.eqb_eq; exact Tb]. }
    assert (Z3 : forall x y z, lower1 x <> 0 -> lower1 y <> 0 -> lower1 z <> 0 -> Forall (fun c => lower1 c <> 0) [x; y; z]) by (repeat constructor; assumption).
    assert (G := guard_spec bdos _ _ _ _ (D (bs "LPT") eq_refl ltac:(apply Z3; discriminate) true) (ex_intro _ true (conj eq_refl (conj (fun e => False_ind False (diff_true_false e)) (fun f : False => False_ind (true = false) f))))).
    apply (guard_spec bdos _ _ _ _ (D (bs "COM") eq_refl ltac:(apply Z3; discriminate) true)) in G.
    apply (guard_spec bdos _ _ _ _ (D (bs "NUL") eq_refl ltac:(apply Z3; discriminate) false)) in G.
    apply (guard_spec bdos _ _ _ _ (D (bs "AUX") eq_refl ltac:(apply Z3; discriminate) false)) in G.
    apply (guard_spec bdos _ _ _ _ (D (bs "PRN") eq_refl ltac:(apply Z3; discriminate) false)) in G.
    apply (guard_spec bdos _ _ _ _ (D (bs "CON") eq_refl ltac:(apply Z3; discriminate) false)) in G.
    destruct G as (r & Er & R). exists r. split; [exact Er|]. rewrite R.
    change (lower (bs "CON")) with (bs "con"); change (lower (bs "PRN")) with (bs "prn"); change (lower (bs "AUX")) with (bs "aux"); change (lower (bs "NUL")) with (bs "nul");
    change (lower (bs "COM")) with (bs "com"); change (lower (bs "LPT")) with (bs "lpt").
    assert (DD : dos_device c <-> dos_plain (bs "con") c \/ dos_plain (bs "prn") c \/ dos_plain (bs "aux") c \/ dos_plain (bs "nul") c \/ dos_num (bs "com") c \/ dos_num (bs "lpt") c).
    { unfold dos_device, dos_num, dos_plain. split.
      - intros (b & t & Eb & Ht & [X|[X|[X|[X|(d & Hd & [X|X])]]]]); eauto 20.
      - intros [(b & t & Eb & Ht & X)|[(b & t & Eb & Ht & X)|[(b & t & Eb & Ht & X)|[(b & t & Eb & Ht & X)|[(d & Hd & b & t & Eb & Ht & X)|(d & Hd & b & t & Eb & Ht & X)]]]]];
          exists b, t; eauto 20. }
    rewrite DD.
    assert (T2' : ~ (bt = true /\ len = 2%nat /\ nth 0 c 0 = 46 /\ nth 1 c 0 = 46)) by (intros X; apply T2 in X; discriminate).
    assert (T1' : ~ (bt = true /\ len = 1%nat /\ nth 0 c 0 = 46)) by (intros (X1 & X2 & X3); rewrite X1, X2, X3 in T1; discriminate).
    assert (T3' : ~ (bd = true /\ z = 46)) by (intros (X1 & X2); rewrite X1, X2 in T3; discriminate).
    assert (T4' : ~ (bsp = true /\ z = 32)) by (intros (X1 & X2); rewrite X1, X2 in T4; discriminate).
    assert (T5' : ~ (bc = true /\ z = 58)) by (intros (X1 & X2); rewrite X1, X2 in T5; discriminate).
    clear -NE T1' T2' T3' T4' T5'. tauto.
Qed.

Lemma gitmodules_ok : good_gitfile (bs "gitmodules") (bs "gi7eba").
Proof. assert (G := good_gitfiles). inv G. inv H2. assumption. Qed.
Lemma small_gitmodules : Forall (fun x => 0 < x < 128) (bs "gitmodules").
Proof. repeat constructor; reflexivity. Qed.

Lemma neg_spec (x : res bool) (P : Prop) : (exists r, x = Ok r /\ (r = false <-> P)) ->
  exists r, (do g <- (do a <- x ;; Ok (negb a)) ;; Ok (negb g)) = Ok r /\ (r = false <-> P).
Proof. intros (r & -> & R). cbn [bindr]. rewrite negb_involutive. exists r. auto. Qed.

Lemma validate_repo_component_spec s j len flags link : cstr s -> bytes j -> at_component s len ->
  exists r, validate_repo_component flags link (s ++ 0 :: j) len = Ok r /\ (r = false <-> fault_repo flags link s (firstn len s)).
Proof.
  intros Hs Hj Ha. assert (Hl := proj1 Ha). set (c := firstn len s).
  assert (Lc : length c = len) by (unfold c; rewrite firstn_length; lia).
  assert (Bj : bytes (0 :: j)) by (constructor; [unfold is_byte; lia|exact Hj]).
  assert (Bs := cstr_bytes s Hs).
  assert (Last : exists r, (if negb (has flags F_HFS) && negb (has flags F_NTFS) && has flags F_LITERAL then
     do l <- looks_dotgit (s ++ 0 :: j) len ;;
     if (l : bool) then
       if (len =? 4)%nat then Ok false
       else if link then do k <- common_prefix_icase (s ++ 0 :: j) len (bs ".gitmodules" ++ [0]) ;; Ok (negb (k =? len)%nat)
       else Ok true
     else Ok true
   else Ok true) = Ok r /\ (r = false <-> ~ on flags F_HFS /\ ~ on flags F_NTFS /\ on flags F_LITERAL /\
     (lower c = bs ".git" \/ link = true /\ (4 < length c)%nat /\ starts_with (lower c) (bs ".gitmodules")))).
  { unfold has, on.
    destruct (Z.testbit flags F_HFS); cbn [negb andb]; [exists true; split; [reflexivity|]; split; [discriminate|tauto]|].
    destruct (Z.testbit flags F_NTFS); cbn [negb andb]; [exists true; split; [reflexivity|]; split; [discriminate|tauto]|].
    destruct (Z.testbit flags F_LITERAL); cbn [negb andb]; [|exists true; split; [reflexivity|]; split; [discriminate|intros (_ & _ & X & _); discriminate]].
    destruct (looks_dotgit_spec s j len Hs Hl) as (l & -> & L). cbn [bindr].
    assert (L4 : lower c = bs ".git" <-> len = 4%nat /\ lower (firstn 4 s) = bs ".git").
    { unfold c. split; [|intros [-> E]; exact E]. intros E. assert (E4 : len = 4%nat) by (rewrite <- Lc; unfold c; rewrite <- lower_length, E; reflexivity). rewrite E4 in E. auto. }
    assert (Pre : forall n, (n <= length s)%nat -> (4 <= n)%nat -> starts_with (lower (firstn n s)) (bs ".gitmodules") -> lower (firstn 4 s) = bs ".git").
    { intros n Hn H4 [v E]. transitivity (firstn 4 (bs ".gitmodules")); [|reflexivity]. rewrite E, firstn_app, lower_length, firstn_length.
      replace (4 - Nat.min n (length s))%nat with O by lia. rewrite firstn_O, app_nil_r, <- lower_firstn, firstn_firstn. f_equal. f_equal. lia. }
    destruct l.
    - destruct (proj1 L eq_refl) as [H4 E4]. destruct (Nat.eqb_spec len 4) as [E|N].
      + exists false. split; [reflexivity|]. split; [intros _|reflexivity]. repeat (split; [congruence|]). left. apply L4. auto.
      + destruct link.
        * destruct (common_prefix_spec s j (bs ".gitmodules") Hs ltac:(repeat constructor; reflexivity) len Hl) as (k & -> & Hk & K). cbn [bindr].
          exists (negb (k =? len)%nat). split; [reflexivity|]. rewrite negb_false_iff, Nat.eqb_eq, K. change (lower (bs ".gitmodules")) with (bs ".gitmodules"). fold c. split.
          -- intros X. repeat (split; [congruence|]). right. split; [reflexivity|]. split; [lia|exact X].
          -- intros (_ & _ & _ & [X|(_ & _ & X)]); [apply L4 in X; lia|exact X].
        * exists true. split; [reflexivity|]. split; [discriminate|]. intros (_ & _ & _ & [X|(X & _)]); [apply L4 in X; lia|discriminate].
    - exists true. split; [reflexivity|]. split; [discriminate|]. intros (_ & _ & _ & X). exfalso.
      assert (NL : ~ ((4 <= len)%nat /\ lower (firstn 4 s) = bs ".git")) by (intros Y; apply L in Y; discriminate). apply NL. clear NL.
      destruct X as [X|(_ & X & Y)]; [apply L4 in X; destruct X as [-> X]; auto|]. split; [lia|]. apply (Pre len); [exact Hl|lia|exact Y]. }
  unfold validate_repo_component, is_gitfile. cbn [Z.leb Z.ltb andb Z.eqb Z.compare Pos.compare Pos.compare_cont CompOpp Pos.eqb Z.to_nat Pos.to_nat].
  change (nth (Z.to_nat 1) gitfiles ([], [])) with (bs "gitmodules", bs "gi7eba").
  assert (G := guard_spec (has flags F_NTFS && link) _ _ _ _ (neg_spec _ _ (dotgit_ntfs_generic_spec s j len _ _ Hs Ha gitmodules_ok)) Last).
  apply (guard_spec (has flags F_NTFS) _ _ _ _ (dotgit_ntfs_spec s j len Hs Ha)) in G.
  apply (guard_spec (has flags F_HFS && link) _ _ _ _ (neg_spec _ _ (dotgit_hfs_spec s (0 :: j) len (bs "gitmodules") Bs Bj Hl small_gitmodules))) in G.
  apply (guard_spec (has flags F_HFS) _ _ _ _ (dotgit_hfs_spec s (0 :: j) len (bs "git") Bs Bj Hl ltac:(repeat constructor; reflexivity))) in G.
  destruct G as (r & Er & R). exists r. split; [exact Er|]. rewrite R. unfold fault_repo. fold c.
  change (46 :: bs "git") with (bs ".git"). change (46 :: bs "gitmodules") with (bs ".gitmodules"). unfold on, has.
  rewrite !andb_true_iff. clear. tauto.
Qed.

Definition fault (flags : Z) (link : bool) (s c : list Z) : Prop := fault_fs flags c \/ fault_repo flags link s c.

Lemma check_component_spec s j len flags link : cstr s -> bytes j -> at_component s len ->
  exists r, check_component flags link (s ++ 0 :: j) len = Ok r /\ (r = false <-> fault flags link s (firstn len s)).
Proof.
  intros Hs Hj Ha. unfold check_component, fault.
  assert (G := guard_spec true _ _ _ _ (validate_component_spec s j len flags Hs (proj1 Ha)) (validate_repo_component_spec s j len flags link Hs Hj Ha)).
  destruct G as (r & Er & R). exists r. split; [exact Er|]. rewrite R. tauto.
Qed.

(** *** The loop *)

(** The positions where components start. *)
Definition boundary (pre : list Z) : Prop := pre = [] \/ exists q, pre = q ++ [47].
Definition component (s : list Z) : list Z := hd [] (split 47 s).

Definition all_components (P : list Z -> list Z -> Prop) (p : list Z) : Prop :=
  forall pre s, p = pre ++ s -> boundary pre -> P s (component s).

Lemma component_end a : ~ In 47 a -> component a = a.
Proof. intros H. unfold component. rewrite split_nosep by exact H. reflexivity. Qed.
Lemma component_slash a w : ~ In 47 a -> component (a ++ 47 :: w) = a.
Proof. intros H. unfold component. rewrite split_app by exact H. reflexivity. Qed.

Lemma all_end P a : ~ In 47 a -> (all_components P a <-> P a a).
Proof.
  intros H. split.
  - intros A. rewrite <- (component_end a H) at 2. apply (A []); [reflexivity|left; reflexivity].
  - intros HP pre s E [->|[q ->]].
    + cbn in E. subst s. rewrite component_end by exact H. exact HP.
    + exfalso. apply H. rewrite E. rewrite <- app_assoc. apply in_or_app. right. left. reflexivity.
Qed.

Lemma all_slash P a w : ~ In 47 a -> (all_components P (a ++ 47 :: w) <-> P (a ++ 47 :: w) a /\ all_components P w).
Proof.
  intros H. split.
  - intros A. split.
    + rewrite <- (component_slash a w H) at 2. apply (A []); [reflexivity|left; reflexivity].
    + intros pre s -> B. apply (A (a ++ 47 :: pre)); [rewrite <- app_assoc; reflexivity|].
      right. destruct B as [->|[q ->]]; [exists a; reflexivity|]. exists (a ++ 47 :: q). rewrite <- app_assoc. reflexivity.
  - intros [HP A] pre s E [->|[q ->]].
    + cbn in E. subst s. rewrite component_slash by exact H. exact HP.
    + rewrite <- app_assoc in E. cbn in E.
      assert (C : (length a <= length q)%nat).
      { destruct (le_lt_dec (length a) (length q)) as [|L]; [assumption|]. exfalso. apply H.
        assert (X : nth (length q) (a ++ 47 :: w) 0 = 47) by (rewrite E, app_nth2, Nat.sub_diag by lia; reflexivity).
        rewrite app_nth1 in X by exact L. rewrite <- X. apply nth_In. exact L. }
      assert (E1 : q = a ++ skipn (length a) q).
      { rewrite <- (firstn_skipn (length a) q) at 1. f_equal.
        assert (X : firstn (length a) (q ++ 47 :: s) = a) by (rewrite <- E; apply firstn_len_app; reflexivity).
        rewrite firstn_app in X. replace (length a - length q)%nat with O in X by lia. rewrite firstn_O, app_nil_r in X. exact X. }
      rewrite E1, <- app_assoc in E. apply app_inv_head in E.
      destruct (skipn (length a) q) as [|x q'] eqn:Eq; cbn in E; injection E.
      * intros Ew. apply (A []); [exact Ew|left; reflexivity].
      * intros Ew Ex. apply (A (q' ++ [47])); [rewrite <- app_assoc; exact Ew|right; exists q'; reflexivity].
Qed.

Lemma not_all_faults (P : list Z -> list Z -> Prop) r (Q : Prop) : (r = false <-> Q) -> (r = true <-> ~ Q).
Proof. destruct r; intuition congruence. Qed.

(** The bytes of a path that the flags forbid. *)
Definition char_ok (flags c : Z) : Prop :=
  ~ (on flags F_BACKSLASH /\ c = 92) /\ ~ (on flags F_SLASH /\ c = 47) /\
  ~ (on flags F_NT_CHARS /\ (c < 32 \/ In c (bs "<>:|?*") \/ c = 34)).
Lemma validate_char_spec flags c : validate_char c flags = true <-> char_ok flags c.
Proof.
  unfold validate_char, char_ok, on, has. change (bs "<>:|?*") with [60; 62; 58; 124; 63; 42]. cbn [In].
  destruct (Z.testbit flags F_BACKSLASH), (Z.testbit flags F_SLASH), (Z.testbit flags F_NT_CHARS);
    destruct (Z.eqb_spec c 92); cbn [andb]; try (split; [discriminate|tauto]);
    destruct (Z.eqb_spec c 47); cbn [andb]; try (split; [discriminate|tauto]);
    try (split; [intros _|reflexivity]; repeat split; intros [X Y]; try discriminate; try lia);
    rewrite negb_true_iff, !orb_false_iff; intuition (try lia; try discriminate; congruence).
Qed.

Lemma path_loop_spec flags link j : bytes j -> forall w a left, cstr (a ++ w) -> ~ In 47 a -> (left = None \/ left = Some (length w)) ->
  exists r, path_loop flags link (w ++ 0 :: j) (a ++ w ++ 0 :: j) (length a) left = Ok r /\
    (r = true <-> Forall (char_ok flags) w /\ all_components (fun s c => ~ fault flags link s c) (a ++ w)).
Proof.
  intros Hj. induction w as [|c w IH]; intros a left Hs Ha Hleft; cbn [app path_loop].
  - change (0 =? 0) with true. cbn [orb]. rewrite app_nil_r in *.
    assert (E : match left with Some (S _) => Ok false | _ => check_component flags link (a ++ 0 :: j) (length a) end = check_component flags link (a ++ 0 :: j) (length a)).
    { destruct Hleft as [->| ->]; reflexivity. }
    rewrite E. destruct (check_component_spec a j (length a) flags link Hs Hj) as (r & -> & R).
    { split; [lia|]. split; [rewrite firstn_all; exact Ha|]. right. apply nth_overflow. lia. }
    exists r. split; [reflexivity|]. rewrite firstn_all in R. rewrite (not_all_faults (fun _ _ => True) r _ R), all_end by exact Ha. split; [auto|tauto].
  - assert (Hc : 0 < c < 256). { apply Forall_app in Hs as [_ Hs]. inv Hs. assumption. }
    destruct (Z.eqb_spec c 0); [lia|]. cbn [orb].
    assert (El : (match left with Some O => true | _ => false end) = false) by (destruct Hleft as [->| ->]; reflexivity). rewrite El.
    set (left' := match left with Some n0 => Some (n0 - 1)%nat | None => None end).
    assert (Hl' : left' = None \/ left' = Some (length w)). { unfold left'. destruct Hleft as [->| ->]; [auto|]. right. cbn. rewrite Nat.sub_0_r. reflexivity. }
    destruct (validate_char c flags) eqn:V; cbn [negb].
    2: { exists false. split; [reflexivity|]. split; [discriminate|]. intros [F _]. inv F. apply validate_char_spec in H1. congruence. }
    apply validate_char_spec in V. destruct (Z.eqb_spec c 47) as [->|N].
    + change (47 :: w ++ 0 :: j) with ((47 :: w) ++ 0 :: j). rewrite app_assoc.
      destruct (check_component_spec (a ++ 47 :: w) j (length a) flags link Hs Hj) as (r & -> & R).
      { split; [rewrite app_length; lia|]. rewrite (proj1 (firstn_len_app a (47 :: w) _ eq_refl)). split; [exact Ha|]. left. rewrite app_nth2, Nat.sub_diag by lia. reflexivity. }
      rewrite (proj1 (firstn_len_app a (47 :: w) _ eq_refl)) in R. cbn [bindr]. assert (AS := all_slash (fun s c => ~ fault flags link s c) a w Ha). setoid_rewrite AS. clear AS. destruct r.
      * destruct (IH [] left') as (r & Er & R'); [apply Forall_app in Hs as [_ Hs]; inv Hs; assumption|tauto|exact Hl'|].
        cbn [app length] in Er, R'. rewrite Er. exists r. split; [reflexivity|]. rewrite R'.
        assert (NF : ~ fault flags link (a ++ 47 :: w) a) by (intros X; apply R in X; discriminate).
        split; [intros [F A]; split; [constructor; assumption|tauto]|intros [F A]; inv F; tauto].
      * exists false. split; [reflexivity|]. split; [discriminate|]. intros [_ [X _]]. exfalso. apply X. apply R. reflexivity.
    + destruct (IH (a ++ [c]) left') as (r & Er & R); [rewrite <- app_assoc; exact Hs| |exact Hl'|].
      { intros X. apply in_app_or in X. destruct X as [X|[X|[]]]; auto. }
      rewrite <- !app_assoc, app_length in Er. cbn [app length] in Er. rewrite Nat.add_1_r in Er. rewrite Er.
      exists r. split; [reflexivity|]. rewrite R, <- app_assoc. cbn [app]. split; [intros [F A]; split; [constructor; assumption|exact A]|intros [F A]; inv F; auto].
Qed.
