From Verif Require Import Base Arr CStr Str ReflogProofs SigModel SigProofs OidModel OidSpec OidProofs OidProps RefnameModel TsortSpec VectorModel VectorSpec VectorProofs MidxSort FheadModel FheadSpec.
From Coq Require Import Permutation.

(** *** The order *)
Definition fh_key (r : fhref) : list Z := (if fh_merge r then 0 else 1) :: fh_name r.
Lemma fh_cmp_key a b : fh_cmp a b = kcmp fh_key a b.
Proof.
  unfold fh_cmp, kcmp, fh_key. destruct (fh_merge a), (fh_merge b); cbn [andb negb]; try reflexivity.
Qed.
Lemma fh_cmp_ok : cmp_ok fh_cmp.
Proof. destruct (kcmp_ok fh_key) as [S T]. split; intros; rewrite !fh_cmp_key in *; eauto. Qed.
Lemma fh_before_cmp a b : fh_cmp a b <= 0 -> fh_before a b.
Proof.
  unfold fh_cmp, fh_before. destruct (fh_merge a), (fh_merge b); cbn [andb negb]; intros H; auto; try lia; right; (split; [reflexivity|]); destruct (lex _ _); congruence || lia.
Qed.
Lemma fh_sorted_ordered l : sorted fh_cmp l -> fh_ordered l.
Proof. induction l as [|a l IH]; [intros _; exact I|]. intros [H1 H2]. split; [intros x Hx; apply fh_before_cmp; auto|auto]. Qed.
Lemma fh_sort l : Z.of_nat (length l) < 8589934592 -> exists l', vsort fh_cmp (mkvec l false) = Ok (mkvec l' true) /\ fh_ordered l' /\ Permutation l l'.
Proof.
  intros HL. assert (E : exists w, vsort fh_cmp (mkvec l false) = Ok w).
  { unfold vsort. cbn [flag items]. destruct (1 <? length l)%nat; [|eauto].
    destruct (TsortTop.tsort_spec fh_cmp fh_cmp_ok l) as [(d & -> & _)|[_ H]]; [cbn [bindr]; eauto|lia]. }
  destruct E as [w E]. assert (Hi : vinv fh_cmp (mkvec l false)) by (intros H; discriminate).
  destruct (vsort_spec fh_cmp fh_cmp_ok _ w Hi E) as (S & F & _ & P & _). exists (items w). destruct w as [i f]. cbn [items flag] in *. subst f. split; [exact E|]. split; [apply fh_sorted_ordered, S|exact P].
Qed.

(** *** Lines *)
Lemma strsep_app c a b : ~ In c a -> strsep c (a ++ c :: b) = Some (a, b).
Proof.
  induction a as [|x a IH]; cbn [app strsep In]; intros H; [rewrite Z.eqb_refl; reflexivity|]. destruct (Z.eqb_spec x c); [tauto|]. rewrite IH by tauto. reflexivity.
Qed.
Lemma prefixb_app p s : prefixb p (p ++ s) = true.
Proof. apply prefixb_spec. exists s. reflexivity. Qed.
Lemma strstr_app n d : (forall c, In c n -> c <> 32) -> strstr (bs "' ") (n ++ bs "' of " ++ d) = Some (n, bs "' of " ++ d).
Proof.
  induction n as [|x n IH]; intros H.
  - cbn [app]. replace (bs "' of " ++ d) with (bs "' " ++ (bs "of " ++ d)) by reflexivity. unfold strstr. destruct (bs "' " ++ bs "of " ++ d) eqn:E; rewrite <- E, prefixb_app; reflexivity.
  - cbn [app]. unfold strstr. fold strstr. assert (P : prefixb (bs "' ") (x :: n ++ bs "' of " ++ d) = false).
    { destruct (prefixb (bs "' ") (x :: n ++ bs "' of " ++ d)) eqn:P; [|reflexivity]. apply prefixb_spec in P. destruct P as [v P]. change (bs "' ") with [39; 32] in P. cbn [app] in P. apply cons_eq in P. destruct P as [_ P].
      destruct n as [|y n]; cbn [app] in P.
      - change (bs "' of ") with [39; 32; 111; 102; 32] in P. discriminate P.
      - apply cons_eq in P. destruct P as [P _]. exfalso. apply (H y); [right; left; reflexivity|exact P]. }
    rewrite P, IH; [reflexivity|]. intros c Hc. apply H. right. exact Hc.
Qed.
Lemma hex_clean id c : oid_ok (length id) id -> In c (hex_text id) -> 48 <= c <= 102.
Proof.
  intros [_ Hb]. unfold hex_text. intros Hc. apply in_map_iff in Hc. destruct Hc as (v & <- & Hv).
  pose proof (proj1 (Forall_forall _ _) (nibbles_range id Hb) v Hv) as HR. cbn beta in HR. unfold digit. destruct (Z.ltb_spec v 10); lia.
Qed.
Lemma oid_line size id : (0 < size)%nat -> oid_ok size id -> exists h, oid_tostr size (2 * size + 1) id = Ok (h ++ [0]) /\ cut0 (h ++ [0]) = h /\ (forall c, In c h -> 48 <= c <= 102) /\ length h = (2 * size)%nat /\ oid_from_string size (h ++ [0]) = Ok id.
Proof.
  intros Hs Hok. assert (Hl : length id = size) by apply Hok. assert (Hc : forall c, In c (hex_text id) -> 48 <= c <= 102) by (intros c; apply hex_clean; rewrite Hl; exact Hok).
  exists (hex_text id). destruct (oid_hex_roundtrip size id [] Hs ltac:(constructor) Hok) as (t & E1 & E2).
  assert (Et : t = hex_text id). { destruct (oid_format_exact size O id Hok) as (_ & E & _). rewrite E in E1. congruence. }
  subst t. split.
  { unfold oid_tostr. replace (2 * size + 1 <? 2 * size + 1)%nat with false by (symmetry; apply Nat.ltb_ge; lia). replace (2 * size + 1 - 1)%nat with (2 * size)%nat by lia.
    unfold oid_fmt in E1. rewrite E1. reflexivity. }
  split. { rewrite <- (cut0_id (hex_text id)) at 2; [|intros H; specialize (Hc 0 H); lia]. generalize (hex_text id). clear. induction l as [|x l IH]; [reflexivity|]. cbn [app cut0]. destruct (x =? 0); [reflexivity|]. now rewrite IH. }
  split; [exact Hc|]. split; [|exact E2]. unfold hex_text. rewrite map_length, nibbles_length. lia.
Qed.

Lemma joinpath_dir d n : last d 0 = 47 -> d <> [] -> (forall c r, n = c :: r -> c <> 47) -> joinpath d n = d ++ n.
Proof.
  intros Hd Hn H. unfold joinpath. destruct d as [|x d]; [congruence|]. rewrite Hd. cbn [Z.eqb Pos.eqb]. f_equal. destruct n as [|c n]; [reflexivity|]. cbn [strip_sl]. destruct (Z.eqb_spec c 47) as [E|E]; [exfalso; exact (H c n eq_refl E)|reflexivity].
Qed.
Lemma prefixb_cut p s : prefixb p s = true -> s = p ++ skipn (length p) s.
Proof. intros H. apply prefixb_spec in H. destruct H as [v ->]. rewrite skipn_app, skipn_all, Nat.sub_diag. reflexivity. Qed.
Lemma prefixb_false p s : ~ starts_with p s -> prefixb p s = false.
Proof. intros H. destruct (prefixb p s) eqn:E; [|reflexivity]. apply prefixb_spec in E. tauto. Qed.

Lemma line_read size r : (0 < size)%nat -> fh_good size r -> exists l, fh_line size r = Ok (l ++ [10]) /\ ~ In 10 l /\ ~ In 0 l /\ forall prev, fh_parse size prev l = Ok (told r).
Proof.
  intros Hs (Ho & Hne & Hn & Hh & Ht & Hu & Hhead). destruct (oid_line size (fh_oid r) Hs Ho) as (h & E1 & E2 & E3 & E4 & E5).
  unfold fh_line. rewrite E1. cbn [bindr]. rewrite E2. unfold told. change (ch " ") with 32 in Hn.
  assert (Hn' : forall c, In c (fh_name r) -> 32 < c < 256) by (apply Forall_forall; exact Hn).
  assert (Hu' : forall c, In c (fh_url r) -> 0 < c < 256 /\ c <> 10) by (apply Forall_forall; exact Hu).
  assert (Hh9 : ~ In 9 h) by (intros I9; specialize (E3 9 I9); lia).
  assert (Eh : forall x prev, x <> [] -> fh_parse size prev (h ++ 9 :: x) =
     match strsep 9 x with
        | None => Err (-1)
        | Some (ms, desc) =>
          if negb (leqb ms [] || leqb ms (bs "not-for-merge")) then Err (-1)
          else
            let m := leqb ms [] in
            let '(type, name) :=
              if prefixb (bs "branch '") desc then (heads, Some (skipn 8 desc))
              else if prefixb (bs "tag '") desc then (tags, Some (skipn 5 desc))
              else if prefixb (bs "'") desc then ([], Some (skipn 1 desc))
              else ([], None) in
            match name with
            | None => Ok (mkev None (Some desc) (fh_oid r) m)
            | Some name =>
              match strstr (bs "' ") name with
              | None => Err (-1)
              | Some (n, d) =>
                if negb (prefixb (bs "' of ") d) then Err (-1)
                else
                  let full := joinpath type n in
                  Ok (mkev (if leqb full [] then None else Some full) (Some (skipn 5 d)) (fh_oid r) m)
              end
            end
        end).
  { intros x prev Hx. unfold fh_parse. destruct (h ++ 9 :: x) as [|z zs] eqn:Ez; [destruct h; discriminate|]. rewrite <- Ez. rewrite strsep_app by exact Hh9.
    rewrite E4, Nat.eqb_refl. cbn [negb]. rewrite E5. cbn [bindr]. destruct x; [congruence|]. reflexivity. }
  destruct (negb (prefixb heads (fh_name r)) && negb (prefixb tags (fh_name r)) && leqb (fh_name r) (bs "HEAD")) eqn:EH.
  - apply andb_prop in EH. destruct EH as [_ EH]. rewrite EH. apply leqb_spec in EH. exists (h ++ [9; 9] ++ fh_url r). split; [rewrite <- !app_assoc; reflexivity|].
    split; [|split].
    + rewrite !in_app_iff. intros [I9|[I9|I9]]; [specialize (E3 _ I9); lia|cbn in I9; lia|apply Hu' in I9; lia].
    + rewrite !in_app_iff. intros [I9|[I9|I9]]; [specialize (E3 _ I9); lia|cbn in I9; lia|apply Hu' in I9; lia].
    + intros prev. change (h ++ [9; 9] ++ fh_url r) with (h ++ 9 :: 9 :: fh_url r). rewrite Eh by discriminate. change (strsep 9 (9 :: fh_url r)) with (Some (@nil Z, fh_url r)).
      change (negb (leqb [] [] || leqb [] (bs "not-for-merge"))) with false. cbv iota zeta. rewrite !prefixb_false by (apply Hhead; [exact EH|cbn; auto]). reflexivity.
  - assert (NH : leqb (fh_name r) (bs "HEAD") = false).
    { destruct (leqb (fh_name r) (bs "HEAD")) eqn:E; [|reflexivity]. exfalso. apply leqb_spec in E. rewrite E in EH. discriminate EH. }
    rewrite NH.
    assert (K : exists type tdir name, (if prefixb heads (fh_name r) then (bs "branch ", skipn (length heads) (fh_name r)) else if prefixb tags (fh_name r) then (bs "tag ", skipn (length tags) (fh_name r)) else ([], fh_name r)) = (type, name) /\
      (forall c, In c type -> 32 <= c) /\ (forall c, In c name -> 32 < c < 256) /\ joinpath tdir name = fh_name r /\
      forall rest, (if prefixb (bs "branch '") (type ++ [39] ++ rest) then (heads, Some (skipn 8 (type ++ [39] ++ rest)))
              else if prefixb (bs "tag '") (type ++ [39] ++ rest) then (tags, Some (skipn 5 (type ++ [39] ++ rest)))
              else if prefixb (bs "'") (type ++ [39] ++ rest) then ([], Some (skipn 1 (type ++ [39] ++ rest)))
              else ([], None)) = (tdir, Some rest)).
    { destruct (prefixb heads (fh_name r)) eqn:P1; [|destruct (prefixb tags (fh_name r)) eqn:P2].
      - exists (bs "branch "), heads, (skipn (length heads) (fh_name r)). pose proof (prefixb_cut _ _ P1) as C. split; [reflexivity|]. split; [cbn; intuition lia|]. split; [|split].
        + intros c Hc. apply Hn'. rewrite C, in_app_iff. auto.
        + rewrite joinpath_dir; [symmetry; exact C|reflexivity|discriminate|]. intros c t E Ec. apply Hh. exists t. rewrite C, E, Ec. reflexivity.
        + intros rest. reflexivity.
      - exists (bs "tag "), tags, (skipn (length tags) (fh_name r)). pose proof (prefixb_cut _ _ P2) as C. split; [reflexivity|]. split; [cbn; intuition lia|]. split; [|split].
        + intros c Hc. apply Hn'. rewrite C, in_app_iff. auto.
        + rewrite joinpath_dir; [symmetry; exact C|reflexivity|discriminate|]. intros c t E Ec. apply Ht. exists t. rewrite C, E, Ec. reflexivity.
        + intros rest. reflexivity.
      - exists [], [], (fh_name r). split; [reflexivity|]. split; [intros c []|]. split; [exact Hn'|]. split; [reflexivity|]. intros rest. reflexivity. }
    destruct K as (type & tdir & name & -> & K1 & K2 & K3 & K4).
    set (ms := if fh_merge r then [] else bs "not-for-merge"). exists (h ++ [9] ++ ms ++ [9] ++ type ++ [39] ++ name ++ bs "' of " ++ fh_url r).
    assert (Hms : forall c, In c ms -> 32 <= c) by (unfold ms; destruct (fh_merge r); cbn; intuition lia).
    split; [rewrite <- !app_assoc; reflexivity|]. 
    assert (NO : forall x, x = 0 \/ x = 10 -> ~ In x (h ++ [9] ++ ms ++ [9] ++ type ++ [39] ++ name ++ bs "' of " ++ fh_url r)).
    { intros x Hx. rewrite !in_app_iff. intros [I9|[I9|[I9|[I9|[I9|[I9|[I9|[I9|I9]]]]]]]]; [specialize (E3 _ I9)|cbn in I9|specialize (Hms _ I9)|cbn in I9|specialize (K1 _ I9)|cbn in I9|specialize (K2 _ I9)|cbn in I9|apply Hu' in I9]; lia. }
    split; [apply NO; auto|]. split; [apply NO; auto|]. intros prev. change (h ++ [9] ++ ms ++ [9] ++ type ++ [39] ++ name ++ bs "' of " ++ fh_url r) with (h ++ 9 :: ms ++ 9 :: type ++ [39] ++ name ++ bs "' of " ++ fh_url r).
    rewrite Eh by (destruct ms; discriminate). rewrite strsep_app by (intros I9; specialize (Hms _ I9); lia).
    replace (negb (leqb ms [] || leqb ms (bs "not-for-merge"))) with false by (unfold ms; destruct (fh_merge r); reflexivity).
    replace (leqb ms []) with (fh_merge r) by (unfold ms; destruct (fh_merge r); reflexivity). cbv zeta. rewrite K4. cbv iota.
    rewrite strstr_app by (intros c Hc; specialize (K2 c Hc); lia). rewrite prefixb_app. cbv iota. cbn [negb]. rewrite K3. replace (leqb (fh_name r) []) with false by (destruct (fh_name r); [congruence|reflexivity]). reflexivity.
Qed.

Definition no_stop (cb : fhev -> Z) : Prop := forall e, cb e = 0.
(** *** Reading any file *)
Lemma strsep_cut c s a b : strsep c s = Some (a, b) -> s = a ++ c :: b.
Proof.
  revert a b. induction s as [|x s IH]; [discriminate|]. intros a b. cbn [strsep]. destruct (Z.eqb_spec x c) as [->|]; [intros H; injection H as <- <-; reflexivity|].
  destruct (strsep c s) as [[a' b']|]; [|discriminate]. intros H. injection H as <- <-. cbn [app]. f_equal. apply IH. reflexivity.
Qed.
Lemma from_text_outcome size s : bytes s -> length s = (2 * size)%nat -> (exists id, oid_from_string size (s ++ [0]) = Ok id) \/ oid_from_string size (s ++ [0]) = Err (-1).
Proof.
  intros B HL. assert (B0 : bytes (s ++ [0])) by (apply bytes_app; split; [exact B|repeat constructor; unfold is_byte; lia]).
  unfold oid_from_string. destruct (from_prefix_outcome size (s ++ [0]) (2 * size) B0) as [[id ->]| ->]; [left; rewrite app_length; lia| |right; reflexivity].
  cbn [bindr]. unfold rd. rewrite nth_error_app2 by lia. rewrite HL, Nat.sub_diag. cbn. left. eauto.
Qed.
Lemma parse_outcome size prev l : bytes l -> (exists ev, fh_parse size prev l = Ok ev) \/ fh_parse size prev l = Err (-1).
Proof.
  intros B. unfold fh_parse. destruct l as [|z zs]; [auto|]. set (l := z :: zs) in *. clearbody l.
  destruct (match strsep 9 l with Some (a, b) => (a, b, prev) | None => (l, [], true) end) as [[t rest] m] eqn:E.
  assert (Bt : bytes t).
  { destruct (strsep 9 l) as [[a b]|] eqn:S; injection E as <- <- <-; [|exact B]. apply strsep_cut in S. rewrite S in B. apply bytes_app in B. apply B. }
  destruct (Nat.eqb_spec (length t) (2 * size)) as [HL|]; cbn [negb]; [|auto].
  destruct (from_text_outcome size t Bt HL) as [[id ->]| ->]; cbn [bindr]; [|auto].
  destruct rest as [|y ys]; [eauto|]. destruct (strsep 9 (y :: ys)) as [[ms desc]|]; [|auto]. destruct (negb _); [auto|]. cbv zeta.
  destruct (if prefixb (bs "branch '") desc then _ else _) as [type [name|]]; [|eauto].
  destruct (strstr (bs "' ") name) as [[n d]|]; [|auto]. destruct (negb _); eauto.
Qed.
Lemma split_bytes c s : bytes s -> Forall bytes (split c s).
Proof.
  induction 1 as [|x s Hx Hs IH]; cbn [split]; [repeat constructor|]. destruct (x =? c); [constructor; [constructor|exact IH]|].
  destruct IH as [|p ps H1 H2]; [constructor; [constructor; [exact Hx|constructor]|constructor]|constructor; [constructor; assumption|exact H2]].
Qed.
Lemma cut0_bytes s : bytes s -> bytes (cut0 s).
Proof. induction 1 as [|x s Hx Hs IH]; cbn [cut0]; [constructor|]. destruct (x =? 0); [constructor|constructor; assumption]. Qed.

Lemma loop_cons size cb prev l more : more <> [] -> fh_loop size cb prev (l :: more) = fh_round size cb prev l (fun m => fh_loop size cb m more).
Proof. destruct more; [congruence|reflexivity]. Qed.
Lemma lines_read size cb l : (0 < size)%nat -> no_stop cb -> Forall (fh_good size) l -> exists t, fh_lines size l = Ok t /\ ~ In 0 t /\ forall prev, fh_loop size cb prev (split 10 t) = Ok (map told l, 0).
Proof.
  intros Hs Hcb. induction 1 as [|r l Hr _ (t & E & N & R)]; [exists []; cbn; auto|].
  destruct (line_read size r Hs Hr) as (x & Ex & N10 & N0 & Rx). exists ((x ++ [10]) ++ t). cbn [fh_lines]. rewrite Ex. cbn [bindr]. rewrite E. cbn [bindr]. split; [reflexivity|].
  split; [rewrite !in_app_iff; cbn [In]; intuition lia|]. intros prev. rewrite <- app_assoc. cbn [app]. rewrite split_app by exact N10. rewrite loop_cons by apply split_nonnil.
  unfold fh_round. rewrite Rx, Hcb. cbn [Z.eqb]. rewrite R. reflexivity.
Qed.
Lemma split_old c a b : last (split c a) [] = [] -> split c (a ++ b) = removelast (split c a) ++ split c b.
Proof.
  induction a as [|x a IH]; intros H; [reflexivity|]. cbn [app split] in *. pose proof (split_nonnil c a) as Na. destruct (x =? c).
  - destruct (split c a) as [|p ps] eqn:E; [congruence|]. cbn [removelast last] in *. rewrite IH by exact H. reflexivity.
  - destruct (split c a) as [|p ps] eqn:E; [congruence|]. destruct ps as [|q qs]; [cbn [last] in H; discriminate|]. rewrite IH by exact H. reflexivity.
Qed.
Lemma loop_old size cb more : no_stop cb -> more <> [] -> forall ps prev evs, Forall bytes ps -> fh_loop size cb prev ps = Ok (evs, 0) ->
  last ps [] = [] /\ exists prev', fh_loop size cb prev (removelast ps ++ more) = do r <- fh_loop size cb prev' more ;; Ok (evs ++ fst r, snd r).
Proof.
  intros Hcb Hm. induction ps as [|p ps IH]; intros prev evs HB H; [discriminate|]. destruct ps as [|q qs].
  - cbn [fh_loop] in H. destruct (leqb p []) eqn:E; [|discriminate]. apply leqb_spec in E. apply Ok_inj in H. injection H as <-. split; [exact E|]. exists prev. cbn [removelast app].
    destruct (fh_loop size cb prev more) as [[e c]| | |]; reflexivity.
  - rewrite loop_cons in H by discriminate. unfold fh_round in H. destruct (fh_parse size prev p) as [ev| | |] eqn:EP; try discriminate.
    + rewrite Hcb in H. cbn [Z.eqb] in H.
      destruct (fh_loop size cb (ev_merge ev) (q :: qs)) as [[e c]| | |] eqn:EL; cbn [bindr fst snd] in H; try discriminate. apply Ok_inj in H. injection H as <- ->.
      destruct (IH (ev_merge ev) e (Forall_inv_tail HB) EL) as (L & prev' & R). split; [exact L|]. exists prev'. change (removelast (p :: q :: qs) ++ more) with (p :: (removelast (q :: qs) ++ more)).
      rewrite loop_cons by (intros K; apply app_eq_nil in K; tauto). unfold fh_round. rewrite EP, Hcb. cbn [Z.eqb]. rewrite R.
      destruct (fh_loop size cb prev' more) as [[e2 c2]| | |]; reflexivity.
    + apply Ok_inj in H. injection H as <- ->. destruct (parse_outcome size prev p (Forall_inv HB)) as [[ev K]|K]; congruence.
Qed.

Lemma loop_safe size cb ps prev : ps <> [] -> Forall bytes ps -> exists evs c, fh_loop size cb prev ps = Ok (evs, c).
Proof.
  revert prev. induction ps as [|p ps IH]; intros prev Hn HB; [congruence|]. destruct ps as [|q qs]; [cbn [fh_loop]; eauto|].
  rewrite loop_cons by discriminate. unfold fh_round. destruct (parse_outcome size prev p (Forall_inv HB)) as [[ev ->]| ->]; [|eauto].
  destruct (cb ev =? 0); [|eauto]. destruct (IH (ev_merge ev) ltac:(discriminate) (Forall_inv_tail HB)) as (evs & c & ->). cbn [bindr]. eauto.
Qed.
Lemma foreach_safe size cb file : bytes file -> exists evs c, fh_foreach size cb file = Ok (evs, c).
Proof. intros B. apply loop_safe; [apply split_nonnil|apply split_bytes, cut0_bytes, B]. Qed.

Lemma write_read size cb old refs evs : (0 < size)%nat -> no_stop cb -> bytes old -> ~ In 0 old -> fh_foreach size cb old = Ok (evs, 0) ->
  Forall (fh_good size) refs -> Z.of_nat (length refs) < 8589934592 ->
  exists l' content, fh_write size old refs = Ok content /\ fh_ordered l' /\ Permutation refs l' /\ fh_foreach size cb content = Ok (evs ++ map told l', 0).
Proof.
  intros Hs Hcb Ho N0 HO HG HL. destruct (fh_sort refs HL) as (l' & ES & O & P). exists l'.
  destruct (lines_read size cb l' Hs Hcb (Permutation_Forall P HG)) as (t & Et & Nt & Rt). exists (old ++ t). unfold fh_write. rewrite ES. cbn [bindr items]. rewrite Et. cbn [bindr].
  split; [reflexivity|]. split; [exact O|]. split; [exact P|]. unfold fh_foreach in *. rewrite cut0_id in HO by exact N0. rewrite cut0_id by (rewrite in_app_iff; tauto).
  destruct (loop_old size cb (split 10 t) Hcb (split_nonnil _ _) (split 10 old) false evs (split_bytes _ _ Ho) HO) as (L & prev' & R).
  rewrite (split_old 10 old t L), R, Rt. reflexivity.
Qed.
