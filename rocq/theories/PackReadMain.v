(** The invariant of any number of threads reading from one pack. *)
From Verif Require Import Base PackHdrSpec DeltaSpec DeltaModel PackReadModel PackReadSpec PackReadProofs.

(** The object at an offset, in terms of the model's decoding. *)
Inductive mden (p : pack) : Z -> Z -> list Z -> Prop :=
| md_plain off e d : chain_elem p off = Ok (e, None) -> 1 <= e_type e <= 4 -> unpack_compressed p (e_pos e) (e_size e) = Ok d -> mden p off (e_type e) d
| md_delta off e b ty bd dl d : chain_elem p off = Ok (e, Some b) -> mden p b ty bd -> unpack_compressed p (e_pos e) (e_size e) = Ok dl ->
    delta_apply bd dl = Ok d -> mden p off ty d.

Lemma mden_iff p off ty d : pack_ok p -> inflates_bytes p -> 0 <= off -> (mden p off ty d <-> denotes p off ty d).
Proof.
  intros P Z0 Ho. split.
  - intros M. revert Ho. induction M as [off e d C R U|off e b ty bd dl d C M IH U A]; intros Ho.
    + apply dn_plain. apply plain_iff; eauto.
    + assert (D : delta_entry p off b dl) by (apply delta_iff; eauto). destruct (base_nonneg p off e b P Ho C) as [Hb _].
      specialize (IH Hb). apply (dn_delta p off b dl ty bd d D IH). apply means_iff; [eapply entry_bytes; eassumption|eapply denotes_len; eassumption|exact A].
  - intros M. revert Ho. induction M as [off ty d H|off base dl ty b d D M IH A]; intros Ho.
    + apply plain_iff in H as (e & C & <- & R & U); [|exact P|exact Ho]. eapply md_plain; eauto.
    + pose proof D as D'. apply delta_iff in D' as (e & C & U); [|exact P|exact Ho]. destruct (base_nonneg p off e base P Ho C) as [Hb _].
      specialize (IH Hb). apply (md_delta p off e base ty b dl d C IH U). apply means_iff; [eapply entry_bytes; eassumption| |exact A].
      eapply denotes_len; eassumption.
Qed.
Lemma mden_fun p off ty d : mden p off ty d -> forall ty' d', mden p off ty' d' -> ty = ty' /\ d = d'.
Proof.
  induction 1 as [off e d C R U|off e b ty bd dl d C M IH U A]; intros ty' d' M'; inversion M' as [? e' ? C' R' U'|? e' b' ? bd' dl' ? C' M2 U' A']; subst.
  - rewrite C in C'. injection C' as <-. split; congruence.
  - congruence.
  - congruence.
  - rewrite C in C'. injection C' as <- <-. apply IH in M2 as [-> ->]. split; congruence.
Qed.

(** [chain p s st off]: following deltas from [s] pushes [st] and leads to [off]. *)
Inductive chain (p : pack) (s : Z) : list elem -> Z -> Prop :=
| ch_nil : chain p s [] s
| ch_cons st o e b : chain p s st o -> chain_elem p o = Ok (e, Some b) -> chain p s (e :: st) b.
Fixpoint applies (p : pack) (st : list elem) (d0 d : list Z) : Prop :=
  match st with
  | [] => d0 = d
  | e :: st' => exists dl d1, unpack_compressed p (e_pos e) (e_size e) = Ok dl /\ delta_apply d0 dl = Ok d1 /\ applies p st' d1 d
  end.
Lemma chain_mden p s st off : chain p s st off -> forall ty d, mden p s ty d <-> exists d0, mden p off ty d0 /\ applies p st d0 d.
Proof.
  induction 1 as [|st o e b Hc IH C]; intros ty d.
  - cbn [applies]. split; [intros H; exists d; auto|intros (d0 & H & <-); exact H].
  - rewrite IH. split.
    + intros (d1 & M & A). inversion M as [? e' ? C' R' U'|? e' b' ? bd dl ? C' M2 U' A']; subst; [congruence|].
      rewrite C in C'. injection C' as <- <-. exists bd. split; [exact M2|]. exists dl, d1. auto.
    + intros (d0 & M & dl & d1 & U & A & Ap). exists d1. split; [|exact Ap]. eapply md_delta; eassumption.
Qed.

Definition holds (t : tst) : option (Z * Z) :=
  match t with Apply _ _ (Held k id) _ => Some (k, id) | Drop k id _ => Some (k, id) | _ => None end.
Definition done_ok (p : pack) (s : Z) (r : res obj) : Prop := forall ty d, r = Ok (ty, d) <-> mden p s ty d.
(** What each thread state promises. *)
Fixpoint tinv (p : pack) (t : tst) : Prop :=
  match t with
  | Idle => True
  | Chain s off st => 0 <= off /\ chain p s st off
  | Add s o key st => 0 <= key /\ chain p s st key /\ mden p key (fst o) (snd o)
  | Apply s ty (Own d) st => exists key, 0 <= key /\ chain p s st key /\ mden p key ty d
  | Apply s ty (Held key _) st => 0 <= key /\ chain p s st key /\ exists d, mden p key ty d
  | Drop k id next => holds next = None /\ tinv p next
  | Done s r => done_ok p s r
  | Crash => False
  end.

Lemma not_ok p s (r : res obj) : (forall o, r <> Ok o) -> (forall ty d, ~ mden p s ty d) -> done_ok p s r.
Proof. intros H N ty d. split; [intros E; exfalso; eapply H; exact E|intros M; exfalso; eapply N; exact M]. Qed.
Lemma is_ok p s ty d : mden p s ty d -> done_ok p s (Ok (ty, d)).
Proof. intros M ty' d'. split; [intros E; injection E as <- <-; exact M|intros M']. destruct (mden_fun _ _ _ _ M _ _ M') as [-> ->]. reflexivity. Qed.

Lemma base_elem_inv p s off e st : 0 <= off -> chain p s st off -> chain_elem p off = Ok (e, None) ->
  tinv p (base_elem p s e st) /\ holds (base_elem p s e st) = None.
Proof.
  intros Ho Hc C. unfold base_elem. pose proof (elem_key _ _ _ _ C) as K.
  assert (N : (forall d, unpack_compressed p (e_pos e) (e_size e) = Ok d -> ~ 1 <= e_type e <= 4) -> forall ty d, ~ mden p s ty d).
  { intros N ty d M. apply (chain_mden p s st off Hc) in M as (d0 & M & _). inversion M as [? e' ? C' R' U'|? e' b' ? bd dl ? C' M2 U' A']; subst; [|congruence].
    rewrite C in C'. injection C' as <-. exact (N _ U' R'). }
  destruct (Z.leb_spec 1 (e_type e)), (Z.leb_spec (e_type e) 4); cbn [andb]; [|split; [cbn [tinv]; apply not_ok; [congruence|apply N; intros; lia]|reflexivity]..].
  destruct (unpack_compressed p (e_pos e) (e_size e)) as [d|x| |] eqn:U; cbn [tinv holds fst snd]; (split; [|reflexivity]); try (apply not_ok; [congruence|apply N; congruence]).
  rewrite K. split; [exact Ho|]. split; [exact Hc|]. eapply md_plain; eauto; lia.
Qed.
Lemma apply_elem_inv p s ty base key e st : pack_ok p -> 0 <= s -> chain p s (e :: st) key -> mden p key ty base ->
  tinv p (apply_elem p s ty base e st) /\ holds (apply_elem p s ty base e st) = None.
Proof.
  intros P Hs Hc M. pose proof (chain_mden p s _ _ Hc) as CM. inversion Hc as [|? o ? ? Hc' C]; subst. pose proof (elem_key _ _ _ _ C) as K.
  assert (Ho : 0 <= o). { clear - P Hs Hc'. induction Hc' as [|st o e b Hc IH C]; [exact Hs|]. apply (base_nonneg p o e b P IH C). }
  unfold apply_elem.
  assert (N : (forall dl d, unpack_compressed p (e_pos e) (e_size e) = Ok dl -> delta_apply base dl <> Ok d) -> forall ty' d', ~ mden p s ty' d').
  { intros N ty' d' M'. apply CM in M' as (d0 & M0 & dl & d1 & U & A & _). destruct (mden_fun _ _ _ _ M _ _ M0) as [_ <-]. exact (N _ _ U A). }
  destruct (unpack_compressed p (e_pos e) (e_size e)) as [dl|x| |] eqn:U; cbn [bindr]; try (split; [cbn [tinv]; apply not_ok; [congruence|apply N; congruence]|reflexivity]).
  destruct (delta_apply base dl) as [d|x| |] eqn:A; (split; [cbn [tinv fst snd]|reflexivity]); try (apply not_ok; [congruence|apply N; congruence]).
  rewrite K. split; [exact Ho|]. split; [exact Hc'|]. eapply md_delta; eassumption.
Qed.

(** ** The cache as a finite map *)
Lemma find_set m k e k' : map_find (map_set m k e) k' = if k =? k' then match map_find m k with Some _ => Some e | None => None end else map_find m k'.
Proof.
  induction m as [|[j x] m IH]; cbn [map_set map_find]. - destruct (k =? k'); reflexivity.
  - destruct (Z.eqb_spec j k) as [->|N].
    + cbn [map_find]. destruct (k =? k'); reflexivity.
    + cbn [map_find]. rewrite IH. destruct (Z.eqb_spec k k') as [->|]; [|reflexivity]. destruct (Z.eqb_spec j k'); [contradiction|reflexivity].
Qed.
Lemma set_keys m k e : map fst (map_set m k e) = map fst m.
Proof. induction m as [|[j x] m IH]; [reflexivity|]. cbn [map_set]. destruct (j =? k); cbn [map fst]; [reflexivity|rewrite IH; reflexivity]. Qed.
Lemma find_none m k : map_find m k = None <-> ~ In k (map fst m).
Proof.
  induction m as [|[j x] m IH]; cbn [map_find map fst]; [split; [intros _ []|reflexivity]|]. destruct (Z.eqb_spec j k) as [->|N].
  - split; [discriminate|]. intros H. exfalso. apply H. left. reflexivity.
  - rewrite IH. split; [intros H [E|I0]; [congruence|exact (H I0)]|intros H I0; apply H; right; exact I0].
Qed.
Fixpoint total (m : list (Z * centry)) : Z := match m with [] => 0 | (_, e) :: r => olen (ce_obj e) + total r end.
Lemma set_total m k e e' : map_find m k = Some e' -> ce_obj e = ce_obj e' -> total (map_set m k e) = total m.
Proof.
  induction m as [|[j x] m IH]; intros F E; [discriminate|]. cbn [map_set map_find] in *. destruct (j =? k); cbn [total].
  - injection F as ->. rewrite E. reflexivity. - rewrite IH by assumption. reflexivity.
Qed.
Lemma total_nonneg m : 0 <= total m.
Proof. induction m as [|[j x] m IH]; cbn [total]; [lia|]. unfold olen. lia. Qed.
Lemma evict_spec m : forall used m' u, evict m used = (m', u) ->
  m' = filter (fun ke => negb (ce_ref (snd ke) =? 0)) m /\ u - total m' = used - total m.
Proof.
  induction m as [|[j x] m IH]; intros used m' u E; cbn [evict] in E; [injection E as <- <-; split; reflexivity|].
  cbn [filter snd total]. destruct (ce_ref x =? 0); cbn [negb].
  - apply IH in E as [-> E]. split; [reflexivity|lia].
  - destruct (evict m used) as [r' u'] eqn:E'. injection E as <- <-. apply IH in E' as [-> E']. split; [reflexivity|]. cbn [total]. lia.
Qed.
Lemma find_filter f m k : NoDup (map fst m) -> map_find (filter f m) k = match map_find m k with Some e => if f (k, e) then Some e else None | None => None end.
Proof.
  induction m as [|[j x] m IH]; intros ND; [reflexivity|]. cbn [map fst] in ND. inversion_clear ND as [|? ? NI ND']. cbn [filter map_find].
  destruct (Z.eqb_spec j k) as [->|N].
  - destruct (f (k, x)) eqn:F; [cbn [map_find]; rewrite Z.eqb_refl; reflexivity|]. rewrite IH by assumption. apply find_none in NI. rewrite NI. reflexivity.
  - destruct (f (j, x)); [cbn [map_find]; destruct (Z.eqb_spec j k); [contradiction|]|]; apply IH; assumption.
Qed.
Lemma filter_keys f (m : list (Z * centry)) k : In k (map fst (filter f m)) -> In k (map fst m).
Proof. rewrite !in_map_iff. intros (x & E & I0). apply filter_In in I0 as [I0 _]. eauto. Qed.
Lemma filter_nodup f (m : list (Z * centry)) : NoDup (map fst m) -> NoDup (map fst (filter f m)).
Proof.
  induction m as [|x m IH]; intros ND; [constructor|]. cbn [map] in ND. inversion_clear ND. cbn [filter]. destruct (f x); [|apply IH; assumption].
  cbn [map]. constructor; [|apply IH; assumption]. intros I0. apply filter_keys in I0. contradiction.
Qed.

(** ** Counting references *)
Definition holdsb (t : tst) (k id : Z) : Z := match holds t with Some (k', id') => if (k' =? k) && (id' =? id) then 1 else 0 | None => 0 end.
Fixpoint cnt (ts : list tst) (k id : Z) : Z := match ts with [] => 0 | t :: r => holdsb t k id + cnt r k id end.
Lemma cnt_upd ts : forall i t t' k id, nth_error ts i = Some t -> cnt (upd ts i t') k id = cnt ts k id - holdsb t k id + holdsb t' k id.
Proof.
  induction ts as [|x ts IH]; intros i t t' k id N; destruct i as [|i]; try discriminate; cbn [nth_error upd cnt] in *.
  - injection N as ->. lia. - rewrite (IH i t t' k id N). lia.
Qed.
Lemma holdsb_range t k id : 0 <= holdsb t k id <= 1.
Proof. unfold holdsb. destruct (holds t) as [[? ?]|]; [|lia]. destruct (_ && _); lia. Qed.
Lemma cnt_nonneg ts k id : 0 <= cnt ts k id.
Proof. induction ts as [|t ts IH]; cbn [cnt]; [lia|]. pose proof (holdsb_range t k id). lia. Qed.
Lemma cnt_pos ts i t k id : nth_error ts i = Some t -> holds t = Some (k, id) -> 0 < cnt ts k id.
Proof.
  revert i. induction ts as [|x ts IH]; intros i N H; destruct i as [|i]; try discriminate; cbn [nth_error cnt] in *.
  - injection N as ->. unfold holdsb. rewrite H, !Z.eqb_refl. cbn. pose proof (cnt_nonneg ts k id). lia.
  - pose proof (IH i N H). pose proof (holdsb_range x k id). lia.
Qed.
Lemma cnt_none ts k id : (forall i t, nth_error ts i = Some t -> holds t <> Some (k, id)) -> cnt ts k id = 0.
Proof.
  induction ts as [|x ts IH]; intros H; cbn [cnt]; [reflexivity|]. rewrite IH by (intros i t N; apply (H (S i) t N)).
  unfold holdsb. pose proof (H O x eq_refl) as H0. destruct (holds x) as [[a b]|]; [|reflexivity].
  destruct (Z.eqb_spec a k), (Z.eqb_spec b id); cbn [andb]; try reflexivity. subst. contradiction.
Qed.
Lemma nth_upd_cases {A} (l : list A) i x j y : nth_error (upd l i x) j = Some y -> (j = i /\ y = x) \/ (j <> i /\ nth_error l j = Some y).
Proof.
  revert i j. induction l as [|a l IH]; intros i j N; destruct i as [|i], j as [|j]; cbn [upd nth_error] in *; try discriminate; try (right; split; [lia|exact N]).
  - left. split; [reflexivity|congruence].
  - apply IH in N as [[-> ->]|[N1 N2]]; [left; auto|right; split; [lia|exact N2]].
Qed.

Record cinv (p : pack) (c : cache) (ts : list tst) : Prop := {
  ci_nodup : NoDup (map fst (c_map c));
  ci_entry : forall k e, map_find (c_map c) k = Some e ->
    0 <= k /\ mden p k (fst (ce_obj e)) (snd (ce_obj e)) /\ ce_id e < c_next c /\ ce_ref e = cnt ts k (ce_id e);
  ci_held : forall i t k id, nth_error ts i = Some t -> holds t = Some (k, id) -> exists e, map_find (c_map c) k = Some e /\ ce_id e = id;
  ci_used : c_used c = total (c_map c);
  ci_limit : c_used c <= LIMIT
}.
Fixpoint starts (t : tst) : option Z := match t with Chain s _ _ | Add s _ _ _ | Apply s _ _ _ | Done s _ => Some s | Drop _ _ n => starts n | _ => None end.
Definition sinv (p : pack) (s : sys) : Prop :=
  cinv p (s_cache s) (s_threads s) /\ forall i t, nth_error (s_threads s) i = Some t -> tinv p t /\ forall o, starts t = Some o -> 0 <= o.

(** A step that touches neither the cache nor a reference. *)
Lemma cinv_frame p c ts i t t' : cinv p c ts -> nth_error ts i = Some t -> holds t = holds t' -> cinv p c (upd ts i t').
Proof.
  intros [ND EN HE US LI] N H. split; try assumption.
  - intros k e F. destruct (EN k e F) as (A & B & C & D). repeat split; try assumption. rewrite (cnt_upd ts i t t' _ _ N). unfold holdsb. rewrite H. lia.
  - intros j u k id Nj Hu. apply nth_upd_cases in Nj as [[-> ->]|[_ Nj]]; [|eapply HE; eassumption]. rewrite <- H in Hu. eapply HE; eassumption.
Qed.

Lemma holdsb_some t k id : holds t = Some (k, id) -> forall k' id', holdsb t k' id' = if (k =? k') && (id =? id') then 1 else 0.
Proof. intros H k' id'. unfold holdsb. rewrite H. reflexivity. Qed.
Lemma holdsb_no t : holds t = None -> forall k id, holdsb t k id = 0.
Proof. intros H k id. unfold holdsb. rewrite H. reflexivity. Qed.

(** Taking a reference. *)
Lemma cinv_get p c ts i t t' off e c' : cinv p c ts -> nth_error ts i = Some t -> holds t = None -> cache_get c off = Some (e, c') ->
  holds t' = Some (off, ce_id e) -> cinv p c' (upd ts i t').
Proof.
  intros [ND EN HE US LI] N H G H'. unfold cache_get in G. destruct (map_find (c_map c) off) as [e0|] eqn:F; [|discriminate]. injection G as <- <-.
  split; cbn [c_map c_used c_next].
  - rewrite set_keys. exact ND.
  - intros k e. rewrite find_set, F. rewrite (cnt_upd ts i t t' _ _ N), (holdsb_no _ H), (holdsb_some _ _ _ H'). destruct (Z.eqb_spec off k) as [<-|NE].
    + intros X. injection X as <-. destruct (EN off e0 F) as (A & B & C & D). cbn [ce_obj ce_id ce_ref add_ref]. repeat split; try assumption. rewrite Z.eqb_refl. cbn [andb]. lia.
    + intros X. destruct (EN k e X) as (A & B & C & D). repeat split; try assumption. cbn [andb]. lia.
  - intros j u k id Nj Hu. rewrite find_set, F. apply nth_upd_cases in Nj as [[-> ->]|[_ Nj]].
    + rewrite H' in Hu. injection Hu as <- <-. rewrite Z.eqb_refl. eexists. split; reflexivity.
    + destruct (HE j u k id Nj Hu) as (e1 & F1 & I1). destruct (Z.eqb_spec off k) as [<-|NE]; [|eauto]. rewrite F in F1. injection F1 as <-. eexists. split; [reflexivity|exact I1].
  - erewrite set_total; [exact US|exact F|reflexivity].
  - exact LI.
Qed.
(** Dropping one: the entry is still there. *)
Lemma cinv_dec p c ts i t t' off id : cinv p c ts -> nth_error ts i = Some t -> holds t = Some (off, id) -> holds t' = None ->
  exists c', cache_dec c off id = Some c' /\ cinv p c' (upd ts i t').
Proof.
  intros [ND EN HE US LI] N H H'. destruct (HE i t off id N H) as (e0 & F & <-). unfold cache_dec. rewrite F, Z.eqb_refl. eexists. split; [reflexivity|].
  split; cbn [c_map c_used c_next].
  - rewrite set_keys. exact ND.
  - intros k e. rewrite find_set, F. rewrite (cnt_upd ts i t t' _ _ N), (holdsb_no _ H'), (holdsb_some _ _ _ H). destruct (Z.eqb_spec off k) as [<-|NE].
    + intros X. injection X as <-. destruct (EN off e0 F) as (A & B & C & D). cbn [ce_obj ce_id ce_ref add_ref]. repeat split; try assumption. rewrite Z.eqb_refl. cbn [andb]. lia.
    + intros X. destruct (EN k e X) as (A & B & C & D). repeat split; try assumption. cbn [andb]. lia.
  - intros j u k id' Nj Hu. rewrite find_set, F. apply nth_upd_cases in Nj as [[-> ->]|[_ Nj]]; [congruence|].
    destruct (HE j u k id' Nj Hu) as (e1 & F1 & I1). destruct (Z.eqb_spec off k) as [<-|NE]; [|eauto]. rewrite F in F1. injection F1 as <-. eexists. split; [reflexivity|exact I1].
  - erewrite set_total; [exact US|exact F|reflexivity].
  - exact LI.
Qed.
(** Making room keeps everything in use. *)
Lemma cinv_evict p c ts m u : cinv p c ts -> evict (c_map c) (c_used c) = (m, u) -> cinv p {| c_used := u; c_next := c_next c; c_map := m |} ts.
Proof.
  intros [ND EN HE US LI] E. apply evict_spec in E as [-> E]. split; cbn [c_map c_used c_next].
  - apply filter_nodup. exact ND.
  - intros k e F. rewrite find_filter in F by exact ND. destruct (map_find (c_map c) k) as [e0|] eqn:F0; [|discriminate]. destruct (negb _); [|discriminate]. injection F as <-. apply EN. exact F0.
  - intros i t k id N H. destruct (HE i t k id N H) as (e & F & I1). exists e. split; [|exact I1]. rewrite find_filter, F by exact ND. cbn [snd].
    destruct (EN k e F) as (_ & _ & _ & R). rewrite I1 in R. pose proof (cnt_pos ts i t k id N H). destruct (Z.eqb_spec (ce_ref e) 0); [lia|reflexivity].
  - lia.
  - assert (T : total (filter (fun ke => negb (ce_ref (snd ke) =? 0)) (c_map c)) <= total (c_map c)).
    { clear. induction (c_map c) as [|[k e] m IH]; [reflexivity|]. cbn [filter snd total]. unfold olen in *. destruct (negb _); cbn [total]; unfold olen; lia. }
    lia.
Qed.
Lemma evict_idle p c ts m u : cinv p c ts -> (forall i t, nth_error ts i = Some t -> holds t = None) -> evict (c_map c) (c_used c) = (m, u) -> m = [] /\ u = 0.
Proof.
  intros [ND EN HE US LI] H E. apply evict_spec in E as [-> E].
  assert (N : filter (fun ke => negb (ce_ref (snd ke) =? 0)) (c_map c) = []).
  { assert (G : forall ke, In ke (c_map c) -> ce_ref (snd ke) = 0).
    { intros [k e] I0. assert (F : map_find (c_map c) k = Some e).
      { clear - ND I0. induction (c_map c) as [|[j x] m IH]; [destruct I0|]. cbn [map fst] in ND. inversion_clear ND as [|? ? NI ND']. cbn [map_find]. destruct I0 as [X|I0].
        - injection X as -> ->. rewrite Z.eqb_refl. reflexivity.
        - destruct (Z.eqb_spec j k) as [->|]; [exfalso; apply NI; apply in_map_iff; exists (k, e); auto|apply IH; assumption]. }
      destruct (EN k e F) as (_ & _ & _ & R). cbn [snd]. rewrite R. apply cnt_none. intros i t N. rewrite (H i t N). discriminate. }
    clear - G. induction (c_map c) as [|ke m IH]; [reflexivity|]. cbn [filter]. rewrite (G ke) by (left; reflexivity). cbn. apply IH. intros x I0. apply G. right. exact I0. }
  rewrite N in *. cbn [total] in E. split; [reflexivity|]. lia.
Qed.
(** A new entry. *)
Lemma cinv_put p c ts i t t' o key : cinv p c ts -> nth_error ts i = Some t -> holds t = None -> 0 <= key -> mden p key (fst o) (snd o) ->
  map_find (c_map c) key = None -> c_used c + olen o <= LIMIT -> holds t' = Some (key, c_next c) ->
  cinv p {| c_used := c_used c + olen o; c_next := c_next c + 1; c_map := (key, {| ce_id := c_next c; ce_ref := 1; ce_obj := o |}) :: c_map c |} (upd ts i t').
Proof.
  intros [ND EN HE US LI] N H Hk M F L H'. split; cbn [c_map c_used c_next map fst total ce_obj].
  - constructor; [apply find_none; exact F|exact ND].
  - intros k e. cbn [map_find]. rewrite (cnt_upd ts i t t' _ _ N), (holdsb_no _ H), (holdsb_some _ _ _ H'). destruct (Z.eqb_spec key k) as [<-|NE].
    + intros X. injection X as <-. cbn [ce_obj ce_id ce_ref]. repeat split; try assumption; try lia. rewrite Z.eqb_refl. cbn [andb].
      rewrite (cnt_none ts key (c_next c)); [lia|]. intros j u Nj Hu. destruct (HE j u _ _ Nj Hu) as (e & F1 & I1). congruence.
    + intros X. destruct (EN k e X) as (A & B & C & D). repeat split; try assumption; try lia. cbn [andb]. lia.
  - intros j u k id Nj Hu. cbn [map_find]. apply nth_upd_cases in Nj as [[-> ->]|[_ Nj]].
    + rewrite H' in Hu. injection Hu as <- <-. rewrite Z.eqb_refl. eexists. split; reflexivity.
    + destruct (HE j u k id Nj Hu) as (e1 & F1 & I1). destruct (Z.eqb_spec key k) as [<-|NE]; [congruence|eauto].
  - lia.
  - exact L.
Qed.

Lemma sinv_upd p c ts i t' : (forall j t, nth_error ts j = Some t -> tinv p t /\ forall o, starts t = Some o -> 0 <= o) ->
  cinv p c (upd ts i t') -> tinv p t' -> (forall o, starts t' = Some o -> 0 <= o) ->
  sinv p {| s_cache := c; s_threads := upd ts i t' |}.
Proof.
  intros HT C T S0. split; [exact C|]. intros j u N. cbn [s_threads] in N. apply nth_upd_cases in N as [[-> ->]|[_ N]]; [auto|eapply HT; exact N].
Qed.
Lemma base_elem_starts p s e st o : starts (base_elem p s e st) = Some o -> o = s.
Proof. unfold base_elem. destruct (_ && _); [destruct (unpack_compressed p (e_pos e) (e_size e))|]; cbn; congruence. Qed.
Lemma apply_elem_starts p s ty b e st o : starts (apply_elem p s ty b e st) = Some o -> o = s.
Proof. unfold apply_elem. destruct (bindr _ _); cbn; congruence. Qed.
Lemma apply_elem_drop p s ty b e st k id o : starts (Drop k id (apply_elem p s ty b e st)) = Some o -> o = s.
Proof. unfold apply_elem. destruct (bindr _ _); cbn; congruence. Qed.

Lemma tstep_sinv p s i t : pack_ok p -> sinv p s -> nth_error (s_threads s) i = Some t ->
  forall c t', tstep p (s_cache s) t = (c, t') -> sinv p {| s_cache := c; s_threads := upd (s_threads s) i t' |}.
Proof.
  intros P [CI TI] N c t' E. destruct (TI i t N) as [T S0]. destruct t as [|st0 off st|st0 o key st|st0 ty sr st|off id next|st0 r|]; cbn [tstep] in E.
  - injection E as <- <-. apply sinv_upd; auto. eapply cinv_frame; eauto.
  - (* Chain *) cbn [tinv] in T. destruct T as [Ho Hc]. pose proof (S0 _ eq_refl) as Hs. destruct (cache_get (s_cache s) off) as [[e c']|] eqn:G.
    + injection E as <- <-. pose proof G as G'. unfold cache_get in G'. destruct (map_find (c_map (s_cache s)) off) as [e0|] eqn:F; [|discriminate]. injection G' as -> _.
      destruct (ci_entry _ _ _ CI off e F) as (_ & M & _). apply sinv_upd; auto.
      * eapply cinv_get; eauto; reflexivity.
      * cbn [tinv]. split; [exact Ho|]. split; [exact Hc|]. eexists. exact M.
    + injection E as <- <-. destruct (chain_elem p off) as [[e [b|]]|x| |] eqn:C.
      * apply sinv_upd; auto. { eapply cinv_frame; eauto. } cbn [tinv]. destruct (base_nonneg p off e b P Ho C). split; [assumption|]. econstructor; eassumption.
      * destruct (base_elem_inv p st0 off e st Ho Hc C) as [T' H']. apply sinv_upd; auto.
        { eapply cinv_frame; eauto. } intros o So. apply base_elem_starts in So. subst. exact Hs.
      * apply sinv_upd; auto. { eapply cinv_frame; eauto. } cbn [tinv]. apply not_ok; [congruence|]. intros ty d M. apply (chain_mden _ _ _ _ Hc) in M as (d0 & M & _). inversion M; congruence.
      * apply sinv_upd; auto. { eapply cinv_frame; eauto. } cbn [tinv]. apply not_ok; [congruence|]. intros ty d M. apply (chain_mden _ _ _ _ Hc) in M as (d0 & M & _). inversion M; congruence.
      * apply sinv_upd; auto. { eapply cinv_frame; eauto. } cbn [tinv]. apply not_ok; [congruence|]. intros ty d M. apply (chain_mden _ _ _ _ Hc) in M as (d0 & M & _). inversion M; congruence.
  - (* Add *) cbn [tinv] in T. destruct T as (Hk & Hc & M). pose proof (S0 _ eq_refl) as Hs. destruct st as [|e st].
    + injection E as <- <-. apply sinv_upd; auto. { eapply cinv_frame; eauto. } cbn [tinv]. inversion Hc; subst. destruct o as [ty d]. apply is_ok. exact M.
    + unfold cache_add in E. destruct (SIZE_LIMIT <? olen o).
      { injection E as <- <-. apply sinv_upd; auto. { eapply cinv_frame; eauto. } cbn [tinv]. exists key. auto. }
      destruct (map_find (c_map (s_cache s)) key) as [e0|] eqn:F.
      { injection E as <- <-. apply sinv_upd; auto. { eapply cinv_frame; eauto. } cbn [tinv]. exists key. auto. }
      destruct (if LIMIT <? c_used (s_cache s) + olen o then evict (c_map (s_cache s)) (c_used (s_cache s)) else (c_map (s_cache s), c_used (s_cache s))) as [m u] eqn:Ev.
      assert (CI' : cinv p {| c_used := u; c_next := c_next (s_cache s); c_map := m |} (s_threads s)).
      { destruct (LIMIT <? c_used (s_cache s) + olen o); [eapply cinv_evict; eassumption|]. injection Ev as <- <-. destruct (s_cache s); exact CI. }
      assert (F' : map_find m key = None).
      { destruct (LIMIT <? c_used (s_cache s) + olen o); [|injection Ev as <- <-; exact F]. apply evict_spec in Ev as [-> _]. rewrite find_filter by apply (ci_nodup _ _ _ CI). rewrite F. reflexivity. }
      destruct (Z.ltb_spec LIMIT (u + olen o)).
      * injection E as <- <-. apply sinv_upd; auto. { eapply cinv_frame; eauto. } cbn [tinv]. auto.
      * injection E as <- <-. apply sinv_upd; auto.
        -- eapply (cinv_put p {| c_used := u; c_next := c_next (s_cache s); c_map := m |}); eauto; reflexivity.
        -- cbn [tinv]. split; [exact Hk|]. split; [exact Hc|]. eauto.
  - (* Apply *) pose proof (S0 _ eq_refl) as Hs. destruct sr as [d|k id].
    + cbn [tinv] in T. destruct T as (key & Hk & Hc & M). destruct st as [|e st]; injection E as <- <-.
      * apply sinv_upd; auto. { eapply cinv_frame; eauto. } cbn [tinv]. inversion Hc; subst. apply is_ok. exact M.
      * destruct (apply_elem_inv p st0 ty d key e st P Hs Hc M) as [T' H']. apply sinv_upd; auto. { eapply cinv_frame; eauto. } intros o So. apply apply_elem_starts in So. subst. exact Hs.
    + cbn [tinv] in T. destruct T as (Hk & Hc & d & M). unfold cache_read in E. destruct (ci_held _ _ _ CI i _ k id N eq_refl) as (e0 & F & <-). rewrite F, Z.eqb_refl in E.
      destruct (ci_entry _ _ _ CI k e0 F) as (_ & M0 & _). destruct (mden_fun _ _ _ _ M _ _ M0) as [-> ->]. destruct st as [|e st]; injection E as <- <-.
      * apply sinv_upd; auto. { eapply cinv_frame; eauto. } cbn [tinv holds]. split; [reflexivity|]. inversion Hc; subst. apply is_ok. exact M.
      * destruct (apply_elem_inv p st0 _ _ k e st P Hs Hc M) as [T' H']. apply sinv_upd; auto. { eapply cinv_frame; eauto. }
        -- cbn [tinv]. auto.
        -- intros o So. apply apply_elem_drop in So. subst. exact Hs.
  - (* Drop *) cbn [tinv] in T. destruct T as [H' T']. destruct (cinv_dec p (s_cache s) (s_threads s) i _ next off id CI N eq_refl H') as (c' & D & CI').
    rewrite D in E. injection E as <- <-. apply sinv_upd; auto.
  - injection E as <- <-. apply sinv_upd; auto. eapply cinv_frame; eauto.
  - destruct T.
Qed.
