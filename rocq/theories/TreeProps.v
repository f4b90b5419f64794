(** C10, C11: tree objects. *)
From Verif Require Import Base Str CStr Arr IntModel IntSpec TsortModel TsortMap VectorModel HashModel StrMap TreeModel TreeSpec TreeProofs TreeLookup TreeBuild.

(** *** C10: parsing is exact and total on arbitrary bytes. *)
Theorem tree_parse_exact sz data es : parse_raw sz data = Ok es <-> tree_text sz data es.
Proof.
  unfold parse_raw. destruct (parse_loop_spec sz (length data) data [] (le_n _)) as [H _]. rewrite H. cbn. split.
  - intros (es' & -> & Ht). exact Ht.
  - intros Ht. exists es. auto.
Qed.
Theorem tree_parse_total sz data : (exists es, parse_raw sz data = Ok es) \/ parse_raw sz data = Err EINVALID.
Proof. apply (parse_loop_spec sz (length data) data [] (le_n _)). Qed.

(** *** C10: what a builder writes. *)
Definition fine (sz : nat) (n : list Z) (m : Z) (o : list Z) : Prop :=
  cstr n /\ ~ In (ch "/") n /\ 1 <= Z.of_nat (length n) <= 65535 /\ 0 <= m <= 65535 /\ length o = sz.
(** Arguments a caller can pass: C strings of at most 65535 bytes and ids of the right size. *)
Definition op_fine (sz : nat) (o : bop) : Prop :=
  match o with BInsert n oid _ => cstr n /\ Z.of_nat (length n) <= 65535 /\ length oid = sz | _ => True end.
Definition all_fine (sz : nat) (S : entries_map) : Prop := forall n m o, S n = Some (m, o) -> fine sz n m o.
(** Bytes of an entry list. *)
Inductive tree_bytes : list tentry -> list Z -> Prop :=
| TB0 : tree_bytes [] []
| TB1 e es b r : entry_bytes (te_attr e) (te_name e) (te_oid e) b -> tree_bytes es r -> tree_bytes (e :: es) (b ++ r).

Lemma all_fine_good sz S : all_fine sz S -> names_good S.
Proof. intros H n [m o] E. destruct (H n m o E) as (H1 & H2 & H3 & _). split; [exact H1|]. split; [exact H2|]. cbn. lia. Qed.
Lemma mset_fine sz S n v : all_fine sz S -> (forall m o, v = Some (m, o) -> fine sz n m o) -> all_fine sz (mset S n v).
Proof. intros H Hv k m o. unfold mset. destruct (leqb k n) eqn:E; [apply leqb_spec in E; subst; apply Hv|apply H]. Qed.

Section P.
  Context (hash : list Z -> nat) (path_ok : list Z -> bool) (obj_ok : list Z -> Z -> bool).
  Context (Hslash : forall n, path_ok n = true -> ~ In (ch "/") n).

  Lemma ok_insert_fine sz n oid m : cstr n -> Z.of_nat (length n) <= 65535 -> length oid = sz -> ok_insert path_ok obj_ok n oid m = true -> fine sz n m oid.
  Proof.
    intros H1 H2 H3 H. unfold ok_insert, check_entry in H. destruct (valid_filemode m) eqn:Ev; cbn [negb] in H; [|discriminate].
    destruct (valid_entry_name path_ok n) eqn:En; cbn [negb] in H; [|discriminate]. unfold valid_entry_name in En. apply andb_true_iff in En. destruct En as [E1 E2].
    split; [exact H1|]. split; [apply Hslash, E2|]. split; [destruct n; [discriminate|cbn [length] in *; lia]|]. split; [unfold valid_filemode in Ev; lia|exact H3].
  Qed.
  Lemma brun_fine sz : forall ops S, Forall (op_fine sz) ops -> all_fine sz S -> all_fine sz (fst (brun_spec (ok_insert path_ok obj_ok) S ops)).
  Proof.
    induction ops as [|o ops IH]; intros S Ho Hs; cbn [brun_spec]; [exact Hs|]. inversion Ho as [|? ? Ho1 Ho2]; subst.
    destruct (bspec (ok_insert path_ok obj_ok) S o) as [S1 a] eqn:E. specialize (IH S1 Ho2).
    destruct (brun_spec (ok_insert path_ok obj_ok) S1 ops) as [S2 l] eqn:E2. cbn [fst] in *. apply IH.
    destruct o as [n oid m|n|n|p|]; cbn [bspec] in E.
    - destruct (ok_insert path_ok obj_ok n oid m) eqn:Eo; injection E as <- <-; [|exact Hs]. apply mset_fine; [exact Hs|]. intros m' o' [= <- <-]. destruct Ho1 as (A & B & C). apply ok_insert_fine; assumption.
    - destruct (S n); injection E as <- <-; [|exact Hs]. apply mset_fine; [exact Hs|discriminate].
    - injection E as <- <-. exact Hs.
    - injection E as <- <-. intros n m o H. destruct (S n) as [[m' o']|] eqn:En; [|discriminate]. destruct (p m' n o'); [discriminate|]. injection H as <- <-. apply Hs, En.
    - injection E as <- <-. intros n m o. discriminate.
  Qed.
  Lemma source_fine sz src : Forall (fun e => fine sz (te_name e) (te_attr e) (te_oid e)) src -> all_fine sz (source_map src).
  Proof.
    unfold source_map. assert (G : forall S, all_fine sz S -> Forall (fun e => fine sz (te_name e) (te_attr e) (te_oid e)) src ->
      all_fine sz (fold_left (fun S e => mset S (te_name e) (Some (te_attr e, te_oid e))) src S)).
    { induction src as [|e src IH]; intros S Hs H; [exact Hs|]. inversion H as [|? ? He Hr]; subst. cbn. apply IH; [|exact Hr]. apply mset_fine; [exact Hs|]. intros m o [= <- <-]. exact He. }
    apply G. intros n m o. discriminate.
  Qed.

  Lemma put_entries_bytes sz es : Forall (fun e => fine sz (te_name e) (te_attr e) (te_oid e)) es -> tree_bytes es (concat (map put_entry es)).
  Proof.
    induction 1 as [|e es (H1 & H2 & H3 & H4 & H5) Hes IH]; cbn; [constructor|]. constructor; [|exact IH]. apply put_entry_bytes; lia.
  Qed.
  Lemma bytes_text sz es b : Forall (fun e => fine sz (te_name e) (te_attr e) (te_oid e)) es -> tree_bytes es b -> tree_text sz b es.
  Proof.
    intros H Hb. induction Hb as [|e es b r (t & (Hd & _) & Eb) Hr IH]; [constructor|]. inversion H as [|? ? (H1 & H2 & H3 & H4 & H5) Hes]; subst.
    constructor; [|auto]. exists t. split; [reflexivity|].
    assert (Ht : exists c q, t = c :: q /\ digit 8 c < 8).
    { apply IntProofs.digits_eval in Hd; [|lia]. destruct Hd as (Hne & Ha & _). destruct t as [|c q]; [congruence|]. inversion Ha; subst. eauto. }
    split; [|split; [|split; [exact H4|split; [|split; [exact H3|reflexivity]]]]].
    - destruct Ht as (c & q & -> & Hc). exists c, q. split; [reflexivity|]. apply (IntProofs.space_not_digit 8); [lia|exact Hc].
    - apply numeral8. exists [], [], t, (te_attr e). cbn [app]. repeat split; auto; [left; reflexivity|apply space_stop8].
    - intros Hin. unfold cstr in H1. rewrite Forall_forall in H1. specialize (H1 0 Hin). lia.
  Qed.

  (** Any history of builder calls (on an empty builder or one initialised from a tree)
      answers like a finite map from names to (mode, id); writing then gives the entries of
      that map in canonical order, in git's format, and parsing gives them back. *)
  Theorem tree_builder_canonical sz src ops :
    4 + 4 * Z.of_nat (length src + length ops) <= 2 ^ 30 ->
    Forall (fun e => fine sz (te_name e) (te_attr e) (te_oid e)) src -> Forall (op_fine sz) ops ->
    let S := brun_spec (ok_insert path_ok obj_ok) (source_map src) ops in
    exists t0 t, builder_new hash path_ok obj_ok (Some src) = Ok t0 /\
      brun hash path_ok obj_ok t0 ops = Ok (t, snd S) /\
      (forall data, builder_write t = Ok data ->
         exists es, canonical es /\ (forall e, In e es <-> fst S (te_name e) = Some (te_attr e, te_oid e)) /\
           tree_bytes es data /\ parse_raw sz data = Ok es) /\
      exists data, builder_write t = Ok data.
  Proof.
    intros Hc Hsrc Hops S. destruct (builder_new_spec hash path_ok obj_ok src ltac:(lia)) as (t0 & E0 & R0).
    destruct (brun_spec_ok hash path_ok obj_ok ops t0 (source_map src) (length src) R0 Hc) as (t & E & R).
    exists t0, t. split; [exact E0|]. split; [exact E|]. fold S in R, E.
    pose proof (brun_fine sz ops (source_map src) Hops (source_fine sz src Hsrc)) as Hf. fold S in Hf.
    destruct (builder_write_spec hash t (fst S) _ R (all_fine_good sz _ Hf)) as (W1 & W2 & _). split; [|apply W2; change (2 ^ 30) with 1073741824 in Hc; lia].
    intros data Hd. destruct (W1 data Hd) as (es & C1 & C2 & ->). exists es. split; [exact C1|]. split; [exact C2|].
    assert (Hes : Forall (fun e => fine sz (te_name e) (te_attr e) (te_oid e)) es).
    { apply Forall_forall. intros e He. apply Hf. apply C2. exact He. }
    split; [eapply put_entries_bytes; exact Hes|]. apply tree_parse_exact. apply bytes_text; [exact Hes|]. eapply put_entries_bytes; exact Hes.
  Qed.

  (** Two histories that end with the same entries write the same bytes, whatever the
      order of their operations (and whatever the hash function does). *)
  Theorem tree_bytes_unique es es' b b' : canonical es -> canonical es' -> (forall e, In e es <-> In e es') -> tree_bytes es b -> tree_bytes es' b' -> b = b'.
  Proof.
    intros H1 H2 H3 Hb Hb'. pose proof (canonical_unique es es' H1 H2 H3) as Ees. subst es. clear H1 H2 H3. revert b Hb.
    assert (Od : forall m t t', octal_text m t -> octal_text m t' -> t = t').
    { intros m t t' [D1 Z1] [D2 Z2]. change (ch "0") with 48 in *. change (bs "0") with [48] in *.
      assert (G : forall t m, digits 8 t m -> (hd 0 t <> 48 \/ t = [48]) -> forall f, (length t <= f)%nat -> oct_loop f m [] = t).
      { clear. intros t m D Hz f Hf.
        assert (G1 : forall f acc, (length t <= f)%nat -> oct_loop f m acc = t ++ acc).
        { clear f Hf. induction D as [c v [Hv Hc]|s n c v Ds IH [Hv Hc]]; intros f acc Hf.
          - change (ch "0") with 48 in *. change (ch "9") with 57 in *. change (ch "a") with 97 in *. change (ch "z") with 122 in *. change (ch "A") with 65 in *. change (ch "Z") with 90 in *.
            destruct f as [|f]; [cbn in Hf; lia|]. cbn [oct_loop]. replace (v mod 8) with (c - 48) by lia. replace (v / 8) with 0 by lia. cbn. f_equal. lia.
          - change (ch "0") with 48 in *. change (ch "9") with 57 in *. change (ch "a") with 97 in *. change (ch "z") with 122 in *. change (ch "A") with 65 in *. change (ch "Z") with 90 in *.
            assert (Hs : s <> []) by (apply IntProofs.digits_eval in Ds; [|lia]; tauto).
            assert (Hz' : hd 0 s <> 48 \/ s = [48]). { destruct s as [|x [|y s]]; [congruence| |]; destruct Hz as [Hz|Hz]; try discriminate; auto. }
            assert (Hn : 0 < n).
            { destruct s as [|x s]; [congruence|]. destruct Hz as [Hz|Hz]; [|destruct s; discriminate].
              cbn [app hd] in Hz. apply IntProofs.digits_eval in Ds; [|lia]. destruct Ds as (_ & Ha & En). inversion Ha as [|? ? Hx Ha']; subst.
              cbn [IntProofs.evalz]. pose proof (IntProofs.digit_nonneg 8 x ltac:(lia)). assert (digit 8 x <> 0).
              { intros E. unfold digit in E. destruct ((48 <=? x) && (x <=? 57)) eqn:E1; [lia|]. destruct ((97 <=? x) && (x <=? 122)) eqn:E2; [lia|]. destruct ((65 <=? x) && (x <=? 90)) eqn:E3; lia. }
              pose proof (IntProofs.evalz_mono 8 (0 * 8 + digit 8 x) s ltac:(lia) ltac:(lia)). lia. }
            destruct f as [|f]; [rewrite app_length in Hf; cbn in Hf; lia|]. cbn [oct_loop]. replace ((n * 8 + v) mod 8) with v by lia. replace ((n * 8 + v) / 8) with n by lia.
            destruct (Z.eqb_spec n 0); [lia|]. rewrite IH; [|exact Hz'|rewrite app_length in Hf; cbn in Hf; lia]. rewrite <- app_assoc. cbn. repeat f_equal. lia. }
        rewrite G1 by exact Hf. apply app_nil_r. }
      rewrite <- (G t m D1 Z1 (length t + length t')%nat) by lia. apply G; auto. lia. }
    induction Hb' as [|e es b' r (t & Ht & ->) Hr IH]; intros b0 Hb; inversion Hb as [|? ? b1 r1 (t1 & Ht1 & ->) Hr1]; subst; [reflexivity|].
    rewrite (Od _ _ _ Ht1 Ht), (IH _ Hr1). reflexivity.
  Qed.
End P.

(** *** C11: lookup by name and by path. *)
Definition proper (es : list tentry) : Prop := sortedk es /\ NoDup (map te_name es) /\ Forall short es.

Theorem tree_lookup_exact es k : sortedk es -> Forall short es ->
  exists r, byname es k = Ok r /\ match r with Some e => In e es /\ te_name e = k | None => forall e, In e es -> te_name e <> k end.
Proof.
  intros Hs Hsh. unfold byname. destruct (tree_key_search_spec es k Hsh Hs) as (r & -> & Hr). cbn [bindr]. destruct r as [i|].
  - destruct Hr as (e & He & Hk). rewrite (aget_some _ _ _ He). cbn. exists (Some e). split; [reflexivity|]. split; [eapply nth_error_In; exact He|exact Hk].
  - exists None. auto.
Qed.
(** Trees written by a builder, and parsed, are of that kind. *)
Theorem canonical_proper sz es : canonical es -> Forall (fun e => fine sz (te_name e) (te_attr e) (te_oid e)) es ->
  (forall a b, In a es -> In b es -> te_name a = te_name b -> a = b) -> proper es.
Proof.
  intros Hc Hf Hu. split; [apply canonical_sortedk; exact Hc|]. split.
  - induction Hc as [|a l Hl IH Ha]; cbn; constructor.
    + intros Hin. apply in_map_iff in Hin. destruct Hin as (x & Ex & Hx). assert (x = a) by (apply Hu; [right; exact Hx|left; reflexivity|exact Ex]). subst x.
      rewrite Forall_forall in Ha. specialize (Ha a Hx). rewrite lex_refl in Ha. discriminate.
    + apply IH; [inversion Hf; assumption|]. intros x y Hx Hy. apply Hu; right; assumption.
  - eapply Forall_impl; [|exact Hf]. intros e (_ & _ & H & _). unfold short. lia.
Qed.

Lemma cut_slash_spec p : exists a b, cut_slash p = (a, b) /\ p = a ++ b /\ ~ In 47 a /\ (b = [] \/ exists r, b = 47 :: r).
Proof.
  induction p as [|c p (a & b & E & -> & Ha & Hb)]; cbn; [exists [], []; auto|]. destruct (Z.eqb_spec c 47) as [->|N].
  - exists [], (47 :: a ++ b). repeat split; auto. right. eauto.
  - rewrite E. exists (c :: a), b. repeat split; auto. intros [->|H]; [congruence|auto].
Qed.
Lemma cut_slash_app a b : ~ In 47 a -> (b = [] \/ exists r, b = 47 :: r) -> cut_slash (a ++ b) = (a, b).
Proof.
  intros Ha Hb. induction a as [|c a IH]; cbn.
  - destruct Hb as [->|[r ->]]; reflexivity.
  - destruct (Z.eqb_spec c 47) as [->|N]; [exfalso; apply Ha; left; reflexivity|]. rewrite IH; [reflexivity|]. intros H. apply Ha. right. exact H.
Qed.
Definition tget (t : list tentry) (n : list Z) (m : Z) (o : list Z) : Prop := In (mkte m n o) t.
Lemma proper_byname es e : proper es -> In e es -> byname es (te_name e) = Ok (Some e).
Proof.
  intros (Hs & Hn & Hsh) Hin. destruct (tree_lookup_exact es (te_name e) Hs Hsh) as (r & -> & Hr). f_equal. destruct r as [x|].
  - destruct Hr as [Hx Ex]. f_equal. clear -Hn Hin Hx Ex. induction es as [|a es IH]; [destruct Hin|]. inversion Hn as [|? ? Ha Hn']; subst.
    destruct Hin as [->|Hin], Hx as [->|Hx]; auto; exfalso; apply Ha; [rewrite <- Ex|rewrite Ex]; apply in_map; assumption.
  - exfalso. exact (Hr e Hin eq_refl).
Qed.
Theorem tree_bypath_exact lookup es path : proper es -> (forall o t, lookup o = Some t -> proper t) ->
  (forall e, entry_bypath lookup es path = Ok e <-> walks tget lookup es path (te_attr e) (te_name e) (te_oid e)) /\
  entry_bypath lookup es path <> UB /\ entry_bypath lookup es path <> NoFuel.
Proof.
  intros Hes Hlk. unfold entry_bypath. assert (G : forall fuel es path, (length path < fuel)%nat -> proper es ->
    (forall e, bypath fuel lookup es path = Ok e <-> walks tget lookup es path (te_attr e) (te_name e) (te_oid e)) /\ bypath fuel lookup es path <> UB /\ bypath fuel lookup es path <> NoFuel); [|apply G; [lia|exact Hes]].
  clear es path Hes. induction fuel as [|f IH]; intros es path Hf Hp; [lia|]. cbn [bypath].
  destruct (cut_slash_spec path) as (a & b & E & Epath & Ha & Hb). rewrite E.
  assert (Hinv : forall t p m n o, walks tget lookup t p m n o -> exists a' b', cut_slash p = (a', b') /\ a' <> [] /\
     (exists x, In x t /\ te_name x = a' /\ (b' = [] -> x = mkte m n o) /\ (forall r, b' = 47 :: r -> is_tree x = true /\ (r = [] -> x = mkte m n o) /\
        (r <> [] -> exists t', lookup (te_oid x) = Some t' /\ walks tget lookup t' r m n o)))).
  { intros t p m n o Hw. destruct Hw as [t n m o Hn Hns Hg|t n m o Hn Hns Hg Hd|t n m o t' p m' n' o' Hn Hns Hg Hd Ho Hp' Hw].
    - exists n, []. rewrite <- (app_nil_r n) at 1. rewrite cut_slash_app by auto. split; [reflexivity|]. split; [exact Hn|]. exists (mkte m n o). repeat split; auto; discriminate.
    - exists n, [47]. change (bs "/") with [47]. rewrite cut_slash_app by (first [exact Hns|right; eexists; reflexivity]). split; [reflexivity|]. split; [exact Hn|]. exists (mkte m n o). split; [exact Hg|]. split; [reflexivity|]. split; [discriminate|].
      intros r [= <-]. split; [unfold is_tree; cbn; apply Z.eqb_eq; exact Hd|]. split; [reflexivity|congruence].
    - exists n, (47 :: p). change (bs "/" ++ p) with (47 :: p). rewrite cut_slash_app by (first [exact Hns|right; eexists; reflexivity]). split; [reflexivity|]. split; [exact Hn|]. exists (mkte m n o). split; [exact Hg|]. split; [reflexivity|]. split; [discriminate|].
      intros r [= <-]. split; [unfold is_tree; cbn; apply Z.eqb_eq; exact Hd|]. split; [congruence|]. intros _. cbn. eauto. }
  destruct (Nat.eqb_spec (length a) 0) as [La|La].
  { split; [|split; discriminate]. intros e. split; [discriminate|]. intros Hw. destruct (Hinv _ _ _ _ _ Hw) as (a' & b' & E' & Ha' & _). rewrite E in E'. injection E' as <- <-. destruct a; [congruence|discriminate]. }
  assert (Hane : a <> []) by (intros ->; apply La; reflexivity).
  destruct Hp as (Hs & Hn & Hsh). pose proof (conj Hs (conj Hn Hsh) : proper es) as Hp. destruct (tree_lookup_exact es a Hs Hsh) as (r & Er & Hr). rewrite Er. cbn [bindr].
  destruct r as [x|].
  2:{ split; [|split; discriminate]. intros e. split; [discriminate|]. intros Hw. destruct (Hinv _ _ _ _ _ Hw) as (a' & b' & E' & Ha' & x & Hx & Nx & _). rewrite E in E'. injection E' as <- <-. exfalso. exact (Hr x Hx Nx). }
  destruct Hr as [Hx Nx]. assert (Hux : forall y, In y es -> te_name y = a -> y = x).
  { intros y Hy Ny. pose proof (proper_byname es y Hp Hy) as Ey. rewrite Ny, Er in Ey. congruence. }
  destruct Hb as [->|[q ->]].
  - rewrite app_nil_r in Epath. split; [|split; discriminate]. intros e. split.
    + intros [= <-]. rewrite Epath, <- Nx. apply WLast; [rewrite Nx; exact Hane|rewrite Nx; exact Ha|]. unfold tget. destruct x; exact Hx.
    + intros Hw. destruct (Hinv _ _ _ _ _ Hw) as (a' & b' & E' & _ & y & Hy & Ny & Hy1 & _). rewrite E in E'. injection E' as <- <-. rewrite <- (Hux y Hy Ny), (Hy1 eq_refl). destruct e; reflexivity.
  - destruct (is_tree x) eqn:Et; cbn [negb].
    2:{ split; [|split; discriminate]. intros e. split; [discriminate|]. intros Hw. destruct (Hinv _ _ _ _ _ Hw) as (a' & b' & E' & _ & y & Hy & Ny & _ & Hy2). rewrite E in E'. injection E' as <- <-. destruct (Hy2 q eq_refl) as [Hy3 _]. rewrite (Hux y Hy Ny) in Hy3. congruence. }
    assert (Hdir : isdir (te_attr x)) by (unfold is_tree in Et; apply Z.eqb_eq in Et; exact Et).
    assert (Htx : tget es (te_name x) (te_attr x) (te_oid x)) by (unfold tget; destruct x; exact Hx).
    destruct q as [|c q].
    + split; [|split; discriminate]. intros e. split.
      * intros [= <-]. rewrite Epath, <- Nx. apply WSlash; [rewrite Nx; exact Hane|rewrite Nx; exact Ha|exact Htx|exact Hdir].
      * intros Hw. destruct (Hinv _ _ _ _ _ Hw) as (a' & b' & E' & _ & y & Hy & Ny & _ & Hy2). rewrite E in E'. injection E' as <- <-. destruct (Hy2 [] eq_refl) as (_ & Hy3 & _). rewrite <- (Hux y Hy Ny), (Hy3 eq_refl). destruct e; reflexivity.
    + destruct (lookup (te_oid x)) as [sub|] eqn:El.
      * assert (Hl : (length (c :: q) < f)%nat) by (rewrite Epath, app_length in Hf; cbn [length] in *; lia).
        destruct (IH sub (c :: q) Hl (Hlk _ _ El)) as (I1 & I2). split; [|exact I2]. intros e. rewrite I1. split.
        -- intros Hw. rewrite Epath, <- Nx. change (47 :: c :: q) with (bs "/" ++ c :: q). eapply WDown; [rewrite Nx; exact Hane|rewrite Nx; exact Ha|exact Htx|exact Hdir|exact El|discriminate|exact Hw].
        -- intros Hw. destruct (Hinv _ _ _ _ _ Hw) as (a' & b' & E' & _ & y & Hy & Ny & _ & Hy2). rewrite E in E'. injection E' as <- <-. destruct (Hy2 (c :: q) eq_refl) as (_ & _ & Hy4). destruct (Hy4 ltac:(discriminate)) as (t' & Et' & Hw'). rewrite (Hux y Hy Ny) in Et'. congruence.
      * split; [|split; discriminate]. intros e. split; [discriminate|]. intros Hw. destruct (Hinv _ _ _ _ _ Hw) as (a' & b' & E' & _ & y & Hy & Ny & _ & Hy2). rewrite E in E'. injection E' as <- <-. destruct (Hy2 (c :: q) eq_refl) as (_ & _ & Hy4). destruct (Hy4 ltac:(discriminate)) as (t' & Et' & _). rewrite (Hux y Hy Ny) in Et'. congruence.
Qed.

(** A name of 65536 + 1 bytes is accepted and written with a length truncated to one byte,
    so what is written does not parse back (the length check records an error but goes on). *)
Definition long_name : list Z := repeat 97 (Z.to_nat 65537).
Theorem tree_long_name_refuted : forall hash path_ok obj_ok, path_ok long_name = true -> obj_ok (repeat 1 20) 3 = true ->
  exists t data, brun hash path_ok obj_ok hinit [BInsert long_name (repeat 1 20) 33188] = Ok (t, [ACode 0]) /\
    builder_write t = Ok data /\ data = bs "100644 " ++ [97; 97] ++ repeat 1 20.
Proof.
  intros hash path_ok obj_ok H1 H2.
  assert (Hn : leqb long_name [] = false).
  { destruct (leqb long_name []) eqn:E; [|reflexivity]. apply leqb_spec in E. apply (f_equal (@length Z)) in E. unfold long_name in E. rewrite repeat_length in E. cbn [length] in E. lia. }
  assert (Ec : check_entry path_ok obj_ok long_name (repeat 1 20) 33188 = 0).
  { unfold check_entry, valid_entry_name. rewrite H1, Hn. cbn [negb andb]. change (valid_filemode 33188) with true. cbn [negb].
    change (forallb (fun b => b =? 0) (repeat 1 20)) with false. cbv iota. change (otype_from_mode 33188) with 3. rewrite H2. reflexivity. }
  assert (R0 : rep hash hinit (lift mempty) 0) by apply rep_init.
  destruct (rep_put hash hinit _ 0%nat long_name (mkte 33188 long_name (repeat 1 20)) R0) as (t & Et & R); [change (2 ^ 30) with 1073741824; lia|].
  assert (Eb : brun hash path_ok obj_ok hinit [BInsert long_name (repeat 1 20) 33188] = Ok (t, [ACode 0])).
  { cbn [brun bstep]. unfold builder_insert. rewrite Ec. change (0 <? 0) with false. cbv iota. rewrite (rep_hget hash hinit _ 0%nat long_name R0). cbn [bindr].
    change (lift mempty long_name) with (@None tentry). cbv iota. rewrite Et. reflexivity. }
  exists t. destruct (rep_iter hash t _ _ R) as (l & El & Hnd & Hl & Hin).
  assert (l = [(long_name, mkte 33188 long_name (repeat 1 20))]) as ->.
  { destruct l as [|[k e] l].
    - destruct (proj2 (Hin long_name (mkte 33188 long_name (repeat 1 20)))). unfold sset. rewrite leqb_refl. reflexivity.
    - cbn in Hl. assert (l = []) by (destruct l; [reflexivity|cbn in Hl; lia]). subst l. pose proof (proj1 (Hin k e) (or_introl eq_refl)) as He. unfold sset in He.
      destruct (leqb k long_name) eqn:E; [apply leqb_spec in E; subst k; injection He as <-; reflexivity|discriminate]. }
  eexists. split; [exact Eb|]. unfold builder_write. rewrite El. cbn [bindr map snd fold_left]. split; [reflexivity|].
  cbn [items vinsert vinit app map concat]. rewrite app_nil_r. unfold put_entry, flen, len16. cbn [te_attr te_name te_oid].
  assert (Hl1 : length long_name = Z.to_nat 65537) by apply repeat_length. rewrite Hl1, Z2Nat.id by lia. change (Z.to_nat (65537 mod 65536) + 1)%nat with 2%nat.
  assert (E2 : firstn 2 (long_name ++ [0]) = [97; 97]).
  { unfold long_name. replace (Z.to_nat 65537) with (S (S (Z.to_nat 65535))) by lia. reflexivity. }
  rewrite E2. reflexivity.
Qed.

(** Non-vacuity: a history with insertions, a replacement, refused calls, removal and
    filtering; lookup among names that are prefixes of each other. *)
Definition ex_path_ok (n : list Z) : bool := negb (existsb (fun c => c =? 47) n).
Example ex_slash : forall n, ex_path_ok n = true -> ~ In (ch "/") n.
Proof. intros n H Hin. unfold ex_path_ok in H. apply negb_true_iff in H. rewrite <- not_true_iff_false in H. apply H. apply existsb_exists. exists 47. auto. Qed.
Definition ex_ops : list bop :=
  [BInsert (bs "a.b") [1;2] 33188; BInsert (bs "a") [3;4] 16384; BInsert (bs "a0") [5;6] 33261; BInsert (bs "x/y") [1;1] 33188; BInsert (bs "z") [7;7] 33188;
   BInsert (bs "z") [9;9] 57344; BRemove (bs "q"); BInsert (bs "tmp") [8;8] 33188; BRemove (bs "tmp"); BFilter (fun m _ _ => m =? 57344); BInsert (bs "ab") [1;9] 33188].
Definition ex_hash (n : list Z) : nat := length n.
Definition ex_result : res (list Z) := do (t, _) <- brun ex_hash ex_path_ok (fun _ _ => true) hinit ex_ops ;; builder_write t.
Example ex_fine : Forall (op_fine 2) ex_ops.
Proof. repeat constructor; cbn; lia. Qed.
Example ex_write : ex_result = Ok (bs "100644 a.b" ++ [0;1;2] ++ bs "40000 a" ++ [0;3;4] ++ bs "100755 a0" ++ [0;5;6] ++ bs "100644 ab" ++ [0;1;9]).
Proof. vm_compute. reflexivity. Qed.
Definition ex_tree : list tentry := [mkte 33188 (bs "a.b") [1;2]; mkte 16384 (bs "a") [3;4]; mkte 33261 (bs "a0") [5;6]; mkte 33188 (bs "ab") [1;9]].
Example ex_parse : match ex_result with Ok d => parse_raw 2 d = Ok ex_tree | _ => False end.
Proof. vm_compute. reflexivity. Qed.
Example ex_proper : proper ex_tree.
Proof. split; [repeat constructor; discriminate|]. split; [|repeat constructor; unfold short; cbn; lia]. repeat constructor; cbn; intuition discriminate. Qed.
Example ex_lookup : byname ex_tree (bs "a") = Ok (Some (mkte 16384 (bs "a") [3;4])) /\ byname ex_tree (bs "a.") = Ok None.
Proof. vm_compute. auto. Qed.
Example ex_bypath : entry_bypath (fun o => if leqb o [3;4] then Some ex_tree else None) ex_tree (bs "a/a/a0") = Ok (mkte 33261 (bs "a0") [5;6]).
Proof. vm_compute. reflexivity. Qed.
Print Assumptions tree_builder_canonical.
Print Assumptions tree_bypath_exact.
