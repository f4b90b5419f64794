From Verif Require Import Base Str CodecModel OidModel OidSpec OidProofs OidProps ReflogProofs PrefsProofs PktModel PktSpec.

(** *** More memory behind does not matter if nothing behind was read *)
Definition ext {A} (r r' : res A) : Prop := r <> UB -> r' = r.
Lemma ext_refl {A} (r : res A) : ext r r.
Proof. intros _. reflexivity. Qed.
Lemma ext_bind {A B} (r r' : res A) (k k' : A -> res B) : ext r r' -> (forall x, r = Ok x -> ext (k x) (k' x)) -> ext (bindr r k) (bindr r' k').
Proof.
  intros H1 H2 H. destruct r as [x|e| |]; cbn [bindr] in *; [|rewrite H1 by discriminate; reflexivity|congruence|rewrite H1 by discriminate; reflexivity]. rewrite H1 by discriminate. cbn [bindr]. now apply H2.
Qed.
Lemma ext_if {A} (b : bool) (r1 r1' r2 r2' : res A) : ext r1 r1' -> ext r2 r2' -> ext (if b then r1 else r2) (if b then r1' else r2').
Proof. destruct b; auto. Qed.
Lemma prefixn_ext n : forall s x p, ext (prefixn s n p) (prefixn (s ++ x) n p).
Proof. induction n as [|n IH]; intros s x p; cbn [prefixn]; [apply ext_refl|]. destruct s as [|c r]; [intros H; congruence|]. cbn [app]. destruct p as [|d q]; [apply ext_refl|]. destruct (c =? d); [apply IH|apply ext_refl]. Qed.
Lemma prefixc_ext s : forall x p, ext (prefixc s p) (prefixc (s ++ x) p).
Proof. induction s as [|c r IH]; intros x p; cbn [prefixc app]; [intros H; congruence|]. destruct p; [apply ext_refl|]. destruct (c =? z); [apply IH|apply ext_refl]. Qed.
Lemma take_ext s x n : ext (take s n) (take (s ++ x) n).
Proof. unfold take. destruct (n <=? length s)%nat eqn:E; [|intros H; congruence]. apply Nat.leb_le in E. intros _. rewrite app_length. replace (n <=? length s + length x)%nat with true by (symmetry; apply Nat.leb_le; lia). rewrite firstn_app. replace (n - length s)%nat with O by lia. cbn. now rewrite app_nil_r. Qed.
Lemma memchr_ext s x c n : ext (memchr s c n) (memchr (s ++ x) c n).
Proof. unfold memchr. apply ext_bind; [apply take_ext|]. intros. apply ext_refl. Qed.
Lemma strn_is_ext p : forall s x, ext (strn_is s p) (strn_is (s ++ x) p).
Proof. induction p as [|d q IH]; intros s x; cbn [strn_is]; [apply ext_refl|]. destruct s as [|c r]; [intros H; congruence|]. cbn [app]. destruct (c =? d); [apply IH|apply ext_refl]. Qed.
Lemma strchr_ext c s : forall x, ext (strchr c s) (strchr c (s ++ x)).
Proof. induction s as [|y r IH]; intros x; cbn [strchr app]; [intros H; congruence|]. destruct (y =? c); [apply ext_refl|]. destruct (y =? 0); [apply ext_refl|]. apply ext_bind; [apply IH|]. intros. apply ext_refl. Qed.
Definition sufx (x : list Z) (r : res (option (list Z))) : res (option (list Z)) := do o <- r ;; Ok (option_map (fun t => t ++ x) o).
Lemma strstr_ext p s : forall x, strstr s p <> UB -> strstr (s ++ x) p = sufx x (strstr s p).
Proof.
  induction s as [|c r IH]; intros x H; [now destruct H|]. cbn [strstr app] in *. pose proof (strn_is_ext p (c :: r) x) as E. cbn [app] in E. unfold ext in E.
  destruct (strn_is (c :: r) p) as [b|e| |]; cbn [bindr] in *; try rewrite E by discriminate; cbn [bindr]; try reflexivity; try congruence. destruct b; [reflexivity|]. destruct (c =? 0); [reflexivity|]. now apply IH.
Qed.
Lemma rd_ext s x i : ext (rd s i) (rd (s ++ x) i).
Proof. unfold rd. destruct (nth_error s i) as [c|] eqn:E; [|intros H; congruence]. intros _. rewrite nth_error_app1; [now rewrite E|]. apply nth_error_Some. congruence. Qed.
Lemma skipn_app_le {A} (s x : list A) n : (n <= length s)%nat -> skipn n (s ++ x) = skipn n s ++ x.
Proof. intros H. rewrite skipn_app. replace (n - length s)%nat with O by lia. reflexivity. Qed.
Lemma firstn_app_le {A} (s x : list A) n : (n <= length s)%nat -> firstn n (s ++ x) = firstn n s.
Proof. intros H. rewrite firstn_app. replace (n - length s)%nat with O by lia. cbn. apply app_nil_r. Qed.
Lemma tl_app (s x : list Z) : (1 <= length s)%nat -> tl (s ++ x) = tl s ++ x.
Proof. destruct s; cbn; [lia|reflexivity]. Qed.
Lemma parse_loop_ext n : forall p s x id, ext (parse_loop n p s id) (parse_loop n p (s ++ x) id).
Proof.
  induction n as [|n IH]; intros p s x id; cbn [parse_loop]; [apply ext_refl|]. apply ext_bind; [apply rd_ext|]. intros c _. apply ext_bind; [apply ext_refl|]. intros v _. destruct (v <? 0); [apply ext_refl|]. apply ext_bind; [apply ext_refl|]. intros. apply IH.
Qed.
Lemma oid_ext size s x n : ext (oid_from_prefix size s n) (oid_from_prefix size (s ++ x) n).
Proof. unfold oid_from_prefix. destruct (n =? 0)%nat; [apply ext_refl|]. destruct (2 * size <? n)%nat; [apply ext_refl|]. apply parse_loop_ext. Qed.
Lemma parse_loop_len n : forall p s id o, parse_loop n p s id = Ok o -> n = 0%nat \/ (p + n <= length s)%nat.
Proof.
  induction n as [|n IH]; intros p s id o H; [now left|]. right. cbn [parse_loop] in H. unfold rd at 1 in H. destruct (nth_error s p) as [c|] eqn:E; [|discriminate]. assert (p < length s)%nat by (apply nth_error_Some; congruence).
  cbn [bindr] in H. destruct (fromhex c) as [v| | |]; try discriminate. cbn [bindr] in H. destruct (v <? 0); [discriminate|]. destruct (rd id (Nat.div p 2)); try discriminate. cbn [bindr] in H. apply IH in H. lia.
Qed.
Lemma oid_len size s n o : oid_from_prefix size s n = Ok o -> (n <= length s)%nat.
Proof. unfold oid_from_prefix. destruct (n =? 0)%nat; [discriminate|]. destruct (2 * size <? n)%nat; [discriminate|]. intros H. apply parse_loop_len in H. lia. Qed.
Lemma prefixn_true n : forall s p, prefixn s n p = Ok true -> (length p <= n)%nat /\ exists t, s = p ++ t.
Proof.
  induction n as [|n IH]; intros s p H; cbn [prefixn] in H.
  - destruct p; [split; [cbn; lia|exists s; reflexivity]|discriminate].
  - destruct s as [|c r]; [discriminate|]. destruct p as [|d q]; [split; [cbn; lia|exists (c :: r); reflexivity]|]. destruct (c =? d) eqn:E; [|discriminate]. apply Z.eqb_eq in E. subst d. apply IH in H. destruct H as [H (t & ->)]. split; [cbn; lia|exists t; reflexivity].
Qed.
Lemma take_len s n t : take s n = Ok t -> (n <= length s)%nat /\ t = firstn n s.
Proof. unfold take. destruct (n <=? length s)%nat eqn:E; [|discriminate]. apply Nat.leb_le in E. intros H. apply Ok_inj in H. auto. Qed.
Lemma find_byte_bound c s i : find_byte c s = Some i -> (i < length s)%nat.
Proof. revert i. induction s as [|x s IH]; intros i H; cbn in H; [discriminate|]. destruct (x =? c); [injection H as <-; cbn; lia|]. destruct (find_byte c s) as [j|] eqn:E; [|discriminate]. cbn in H. injection H as <-. specialize (IH j eq_refl). cbn. lia. Qed.
Lemma memchr_len s c n i : memchr s c n = Ok (Some i) -> (i < n <= length s)%nat.
Proof. unfold memchr. destruct (take s n) as [t| | |] eqn:E; cbn [bindr]; try discriminate. apply take_len in E. destruct E as [E ->]. intros H. apply Ok_inj in H. apply find_byte_bound in H. rewrite firstn_length in H. lia. Qed.
Lemma memchr_len2 s c n o : memchr s c n = Ok o -> (n <= length s)%nat.
Proof. unfold memchr. destruct (take s n) as [t| | |] eqn:E; cbn [bindr]; try discriminate. apply take_len in E. tauto. Qed.
Lemma strn_is_true p : forall s, strn_is s p = Ok true -> exists t, s = p ++ t.
Proof. induction p as [|d q IH]; intros s H; cbn [strn_is] in H; [now exists s|]. destruct s as [|c r]; [discriminate|]. destruct (c =? d) eqn:E; [|discriminate]. apply Z.eqb_eq in E. subst. destruct (IH r H) as (t & ->). now exists t. Qed.
Lemma strstr_some p s t : strstr s p = Ok (Some t) -> exists u v, s = u ++ t /\ t = p ++ v.
Proof.
  revert t. induction s as [|c r IH]; intros t H; cbn [strstr] in H; [discriminate|]. destruct (strn_is (c :: r) p) as [b| | |] eqn:E; cbn [bindr] in H; try discriminate. destruct b.
  - apply Ok_inj in H. injection H as <-. destruct (strn_is_true _ _ E) as (v & Ev). exists [], v. auto.
  - destruct (c =? 0); [discriminate|]. destruct (IH t H) as (u & v & -> & Hv). exists (c :: u), v. auto.
Qed.
Lemma strchr_len c s n : strchr c s = Ok (Some n) -> (n < length s)%nat.
Proof. revert n. induction s as [|y r IH]; intros n H; cbn [strchr] in H; [discriminate|]. destruct (y =? c); [apply Ok_inj in H; injection H as <-; cbn; lia|]. destruct (y =? 0); [discriminate|]. destruct (strchr c r) as [o| | |]; cbn [bindr] in H; try discriminate. apply Ok_inj in H. destruct o as [m|]; [|discriminate]. cbn in H. injection H as <-. specialize (IH m eq_refl). cbn. lia. Qed.
Lemma format_end_ext f x : ext (format_end f) (format_end (f ++ x)).
Proof. unfold format_end. apply ext_bind; [apply strchr_ext|]. intros [n|] _; [apply ext_refl|]. apply ext_bind; [apply strchr_ext|]. intros. apply ext_refl. Qed.
Lemma format_end_len f n : format_end f = Ok n -> (n < length f)%nat.
Proof.
  unfold format_end. destruct (strchr 32 f) as [[m|]| | |] eqn:E; cbn [bindr]; try discriminate.
  - intros H. apply Ok_inj in H. subst m. now apply strchr_len in E.
  - destruct (strchr 0 f) as [[m|]| | |] eqn:E2; cbn [bindr]; try discriminate. intros H. apply Ok_inj in H. subst m. now apply strchr_len in E2.
Qed.
Lemma format_size_ext exp f x : ext (format_size exp f) (format_size exp (option_map (fun t => t ++ x) f)).
Proof.
  destruct f as [f|]; cbn [format_size option_map]; [|apply ext_refl]. apply ext_bind; [apply format_end_ext|]. intros n Hn. rewrite firstn_app_le; [apply ext_refl|]. apply format_end_len in Hn. lia.
Qed.
Lemma find_format_ext s x len z : memchr s 0 len = Ok z -> find_format len z s <> UB -> find_format len z (s ++ x) = sufx x (find_format len z s).
Proof.
  intros Ez. unfold find_format. destruct z as [i|]; [|reflexivity]. apply memchr_len in Ez. destruct (S i <? len)%nat eqn:El; [|reflexivity]. cbv zeta. rewrite skipn_app_le by lia. set (caps := skipn (S i) s). intros HU. pose proof (strn_is_ext (bs "object-format=") caps x) as E2. unfold ext in E2.
  destruct (strn_is caps (bs "object-format=")) as [b| | |] eqn:Eb; cbn [bindr] in *; try (exfalso; now apply HU); rewrite E2 by discriminate; cbn [bindr]; try reflexivity. destruct b.
  - apply strn_is_true in Eb. destruct Eb as (t & Et). unfold sufx. cbn [bindr option_map]. rewrite skipn_app_le by (rewrite Et, app_length; cbn; lia). reflexivity.
  - destruct (strstr caps (bs " object-format=")) as [o| | |] eqn:Es; cbn [bindr] in *; try (exfalso; now apply HU); rewrite strstr_ext by (rewrite Es; discriminate); rewrite Es; unfold sufx; cbn [bindr]; try reflexivity. destruct o as [t|]; [|reflexivity]. cbn [option_map]. apply strstr_some in Es. destruct Es as (u & v & _ & ->). rewrite skipn_app_le by (rewrite app_length; cbn; lia). reflexivity.
Qed.
Lemma set_data_ext exp s x len d : ext (set_data exp s len d) (set_data exp (s ++ x) len d).
Proof.
  unfold set_data. apply ext_bind; [apply memchr_ext|]. intros z Hz H. pose proof (find_format_ext s x len z Hz) as E.
  destruct (find_format len z s) as [f| | |]; cbn [bindr] in H; try (exfalso; now apply H); rewrite E by discriminate; unfold sufx; cbn [bindr]; try reflexivity.
  revert H. apply ext_bind; [apply format_size_ext|]. intros. apply ext_refl.
Qed.
Lemma ref_ext exp s x len d : ext (ref_pkt exp s len d) (ref_pkt exp (s ++ x) len d).
Proof.
  unfold ref_pkt. apply ext_bind; [destruct (pd_seen d); [apply ext_refl|apply set_data_ext]|]. intros d' _. destruct (pd_size d') as [size|]; [|apply ext_refl]. destruct (len <? 2 * size)%nat eqn:E; [apply ext_refl|].
  apply ext_bind; [apply oid_ext|]. intros oid Ho. apply oid_len in Ho. cbv zeta. rewrite skipn_app_le by exact Ho. apply ext_bind; [apply prefixn_ext|]. intros b Hb. destruct b; cbn [negb]; [|apply ext_refl]. apply prefixn_true in Hb. destruct Hb as [_ (t & Et)]. rewrite Et. cbn [app tl].
  destruct (len - 2 * size - 1 =? 0)%nat; [apply ext_refl|]. apply ext_bind; [apply take_ext|]. intros. apply ext_refl.
Qed.
Lemma skipn_pfx {A} (p t x : list A) : skipn (length p) ((p ++ t) ++ x) = t ++ x /\ skipn (length p) (p ++ t) = t.
Proof. rewrite <- app_assoc. split; rewrite skipn_app, Nat.sub_diag, skipn_all; reflexivity. Qed.
Lemma ack_ext s x len d : ext (ack_pkt s len d) (ack_pkt (s ++ x) len d).
Proof.
  unfold ack_pkt. destruct (pd_size d) as [size|]; [|apply ext_refl]. apply ext_bind; [apply prefixn_ext|]. intros b Hb. destruct b; cbn [negb]; [|apply ext_refl]. apply prefixn_true in Hb. destruct Hb as [_ (t & ->)]. cbv zeta.
  change 4%nat with (length (bs "ACK ")). destruct (skipn_pfx (bs "ACK ") t x) as [-> ->]. destruct (len - length (bs "ACK ") <? 2 * size)%nat; [apply ext_refl|]. apply ext_bind; [apply oid_ext|]. intros oid Ho. apply oid_len in Ho. rewrite skipn_app_le by exact Ho.
  set (u := skipn (2 * size) t). apply ext_bind; [apply ext_if; [apply ext_refl|]; apply ext_bind; [apply rd_ext|]; intros; apply ext_refl|]. intros sp Hsp. destruct sp; [|apply ext_refl].
  assert (1 <= length u)%nat by (destruct (len - length (bs "ACK ") - 2 * size =? 0)%nat; [discriminate|]; destruct u; [discriminate|cbn; lia]). rewrite tl_app by assumption.
  repeat (apply ext_bind; [apply prefixn_ext|]; intros ? ?; apply ext_if; [apply ext_refl|]). apply ext_refl.
Qed.
Lemma keep_ext {A} d (r r' : res A) : ext r r' -> ext (keep d r) (keep d r').
Proof. intros H. unfold keep. apply ext_bind; [exact H|]. intros. apply ext_refl. Qed.
Lemma shallow_ext w k s x len d : ext (shallow_pkt w k s len d) (shallow_pkt w k (s ++ x) len d).
Proof.
  unfold shallow_pkt. destruct (pd_size d) as [size|]; [|apply ext_refl]. apply ext_bind; [apply prefixn_ext|]. intros b Hb. destruct b; cbn [negb]; [|apply ext_refl]. apply prefixn_true in Hb. destruct Hb as [_ (t & ->)]. cbv zeta. destruct (skipn_pfx w t x) as [-> ->]. destruct (negb (len - length w =? 2 * size)%nat); [apply ext_refl|].
  intros H. pose proof (oid_ext size t x (2 * size)) as E. unfold ext in E. destruct (oid_from_prefix size t (2 * size)); try rewrite E by discriminate; try reflexivity. congruence.
Qed.
Lemma payload_ext exp s x len d : ext (payload exp s len d) (payload exp (s ++ x) len d).
Proof.
  unfold payload. apply ext_bind; [apply rd_ext|]. intros c Hc. assert (1 <= length s)%nat as Hs by (destruct s; [discriminate|cbn; lia]).
  assert (B : forall k, ext (keep d (band_pkt k s len)) (keep d (band_pkt k (s ++ x) len))) by (intros k; apply keep_ext; unfold band_pkt; rewrite tl_app by exact Hs; apply ext_bind; [apply take_ext|intros; apply ext_refl]).
  apply ext_if; [apply B|]. apply ext_if; [apply B|]. apply ext_if; [apply B|].
  apply ext_bind; [apply prefixn_ext|]. intros b1 _. apply ext_if; [apply ack_ext|].
  apply ext_bind; [apply prefixn_ext|]. intros b2 _. apply ext_if; [apply ext_refl|].
  apply ext_bind; [apply prefixn_ext|]. intros b3 _. apply ext_if.
  { apply keep_ext. unfold err_pkt. apply ext_bind; [apply prefixn_ext|]. intros b Hb. destruct b; cbn [negb]; [|apply ext_refl]. apply prefixn_true in Hb. destruct Hb as [_ (t & ->)]. change 4%nat with (length (bs "ERR ")). destruct (skipn_pfx (bs "ERR ") t x) as [-> ->]. apply ext_bind; [apply take_ext|]. intros. apply ext_refl. }
  apply ext_if. { apply keep_ext. unfold comment_pkt. apply ext_bind; [apply take_ext|]. intros. apply ext_refl. }
  apply ext_bind; [apply prefixn_ext|]. intros b4 _. apply ext_if.
  { apply keep_ext. unfold ok_pkt. apply ext_bind; [apply prefixn_ext|]. intros b Hb. destruct b; cbn [negb]; [|apply ext_refl]. apply prefixn_true in Hb. destruct Hb as [_ (t & ->)]. change 3%nat with (length (bs "ok ")). destruct (skipn_pfx (bs "ok ") t x) as [-> ->]. apply ext_bind; [apply take_ext|]. intros. apply ext_refl. }
  apply ext_bind; [apply prefixn_ext|]. intros b5 _. apply ext_if.
  { apply keep_ext. unfold ng_pkt. apply ext_bind; [apply prefixn_ext|]. intros b Hb. destruct b; cbn [negb]; [|apply ext_refl]. apply prefixn_true in Hb. destruct Hb as [_ (t & ->)]. cbv zeta. change 3%nat with (length (bs "ng ")). destruct (skipn_pfx (bs "ng ") t x) as [-> ->].
    apply ext_bind; [apply memchr_ext|]. intros [i|] Hi; [|apply ext_refl]. apply ext_bind; [apply take_ext|]. intros ref _. apply memchr_len in Hi. rewrite skipn_app_le by lia. apply ext_if; [apply ext_refl|]. apply ext_bind; [apply memchr_ext|]. intros [j|] _; [|apply ext_refl]. apply ext_bind; [apply take_ext|]. intros. apply ext_refl. }
  apply ext_bind; [apply prefixn_ext|]. intros b6 _. apply ext_if.
  { apply keep_ext. unfold unpack_pkt. apply ext_bind; [apply prefixn_ext|]. intros. apply ext_refl. }
  apply ext_bind; [apply prefixc_ext|]. intros b7 _. apply ext_if; [apply shallow_ext|].
  apply ext_bind; [apply prefixc_ext|]. intros b8 _. apply ext_if; [apply shallow_ext|]. apply ref_ext.
Qed.
