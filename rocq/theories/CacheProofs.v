(** The invariant of the cache and its preservation by every step. *)
From Verif Require Import Base CacheModel.
Local Open Scope Z_scope.

Definition cnt (p : nat) (l : list nat) : nat := count_occ Nat.eq_dec l p.
Lemma cnt_app p a b : cnt p (a ++ b) = (cnt p a + cnt p b)%nat.
Proof. apply count_occ_app. Qed.
Lemma cnt_cons p q l : cnt p (q :: l) = ((if (q =? p)%nat then 1 else 0) + cnt p l)%nat.
Proof. unfold cnt. cbn [count_occ]. destruct (Nat.eq_dec q p), (Nat.eqb_spec q p); lia. Qed.
Lemma cnt_nil p : cnt p [] = 0%nat. Proof. reflexivity. Qed.
Lemma cnt_in p l : In p l <-> (1 <= cnt p l)%nat.
Proof. unfold cnt. rewrite (count_occ_In Nat.eq_dec). lia. Qed.
Lemma cnt_drop1 p q l : In q l -> cnt p l = ((if (q =? p)%nat then 1 else 0) + cnt p (drop1 l q))%nat.
Proof.
  induction l as [|x l IH]; intros H; [destruct H|]. cbn [drop1]. destruct (Nat.eqb_spec x q) as [->|N]; [apply cnt_cons|].
  destruct H as [?|H]; [contradiction|]. rewrite !cnt_cons, (IH H). lia.
Qed.

Definition kref (k : cont) : list nat := match k with CKclear => [] | CKoff p => [p] | CKevict p => [p] end.
Definition pcrefs (c : pc) : list nat :=
  match c with
  | G4 _ _ (Some p) => [p]
  | S2 p | S4 p | S5 p | S6 p | S7a p _ | S9 _ p | E1 p _ => [p]
  | S7c _ q => [q]
  | E2 p q _ => [p; q]
  | CL0 k | CL2 k => kref k
  | CL1 todo k => todo ++ kref k
  | _ => []
  end.
Definition reading (c : pc) : bool := match c with G2 _ _ | G3 _ _ _ | G4 _ _ _ => true | _ => false end.
Definition writing (c : pc) : bool :=
  match c with S5 _ | S6 _ | S7 _ | S7a _ _ | S7b _ _ | S7c _ _ | S9 _ _ | E1 _ _ | E2 _ _ _ | CL1 _ _ | CL2 _ => true | _ => false end.
Definition clearing (c : pc) : bool := match c with CL1 _ _ => true | _ => false end.
Definition fresh (c : pc) (p : nat) : bool := match c with S1 q => (q =? p)%nat | _ => false end.

Definition b2n (b : bool) : nat := if b then 1%nat else 0%nat.
Fixpoint sumt (f : thread -> nat) (l : list thread) : nat := match l with [] => 0%nat | x :: r => (f x + sumt f r)%nat end.
Lemma sumt_upd f l : forall t th th', nth_error l t = Some th -> (sumt f (upd l t th') + f th = sumt f l + f th')%nat.
Proof. induction l as [|x l IH]; intros [|t] th th' H; try discriminate; cbn in *; [injection H as ->; lia|]. specialize (IH t th th' H). lia. Qed.
Lemma sumt_ge f l : forall t th, nth_error l t = Some th -> (f th <= sumt f l)%nat.
Proof. induction l as [|x l IH]; intros [|t] th H; try discriminate; cbn in *; [injection H as ->; lia|]. specialize (IH t th H). lia. Qed.
Lemma sumt_two f l : forall t th t' th', nth_error l t = Some th -> nth_error l t' = Some th' -> t <> t' -> (f th + f th' <= sumt f l)%nat.
Proof.
  induction l as [|x l IH]; intros [|t] th [|t'] th' H H' N; try discriminate; cbn in *; try lia.
  - injection H as ->. pose proof (sumt_ge f l _ _ H'). lia.
  - injection H' as ->. pose proof (sumt_ge f l _ _ H). lia.
  - specialize (IH t th t' th' H H' ltac:(lia)). lia.
Qed.
Lemma sumt_ext f g l : (forall x, In x l -> f x = g x) -> sumt f l = sumt g l.
Proof. induction l as [|x l IH]; intros H; [reflexivity|]. cbn. rewrite H by (left; reflexivity). rewrite IH; [reflexivity|]. intros y Hy. apply H. right. exact Hy. Qed.

Definition refs (p : nat) (th : thread) : nat := cnt p (t_held th ++ pcrefs (t_pc th)).
Definition nclear (l : list thread) : nat := sumt (fun th => b2n (clearing (t_pc th))) l.
Definition mapref (s : cache) (p : nat) : nat := match nclear (c_thr s) with O => cnt p (map snd (c_map s)) | _ => 0%nat end.
Definition total (s : cache) (p : nat) : nat := (mapref s p + sumt (refs p) (c_thr s))%nat.
Definition nfresh (s : cache) (p : nat) : nat := sumt (fun th => b2n (fresh (t_pc th) p)) (c_thr s).

Definition isobj (objs : list cobj) (oid flags : Z) (p : nat) : Prop :=
  exists o, nth_error objs p = Some o /\ o_oid o = oid /\ (flags = 0 \/ o_flags o = flags).
(** [r] has the id of [p], and its form too (or is the raw form of it). *)
Definition alike (objs : list cobj) (p r : nat) : Prop :=
  exists op or, nth_error objs p = Some op /\ nth_error objs r = Some or /\ o_oid or = o_oid op /\ (o_flags or = o_flags op \/ o_flags or = RAW).
Lemma alike_refl objs p o : nth_error objs p = Some o -> alike objs p p.
Proof. intros H. exists o, o. auto. Qed.
Definition pcok (objs : list cobj) (m : list (Z * nat)) (c : pc) : Prop :=
  match c with
  | G3 oid flags p => In p (map snd m) /\ isobj objs oid flags p
  | G4 oid flags (Some p) => isobj objs oid flags p
  | S1 p | S2 p | S4 p | S5 p | S6 p | CL0 (CKoff p) | CL1 _ (CKoff p) | CL1 _ (CKevict p) | CL2 (CKoff p) | CL2 (CKevict p) => exists o, nth_error objs p = Some o
  | CL0 (CKevict p) => exists o, nth_error objs p = Some o
  | S7 p | S7c p _ => In p (map snd m) /\ alike objs p p
  | S7a p q | S7b p q => In q (map snd m) /\ alike objs p q
  | S9 p r => alike objs p r
  | E1 p n => (n <= length m)%nat /\ exists o, nth_error objs p = Some o
  | E2 p q n => (n <= length m)%nat /\ exists o, nth_error objs p = Some o
  | _ => True
  end.
Definition logok (objs : list cobj) (th : thread) : Prop :=
  (forall oid flags p, In (oid, flags, Some p) (t_log th) -> isobj objs oid flags p) /\ (forall p r, In (p, r) (t_put th) -> alike objs p r).

Record Inv (s : cache) : Prop := {
  v_len : length (c_rc s) = length (c_objs s);
  v_rc : forall p, match nth_error (c_rc s) p with
           | Some (Some n) => n = Z.of_nat (total s p) /\ (total s p + nfresh s p >= 1)%nat
           | _ => total s p = 0%nat /\ nfresh s p = 0%nat
           end;
  v_fresh : forall p, (nfresh s p <= 1)%nat /\ (nfresh s p = 1%nat -> total s p = 0%nat);
  v_rd : c_rd s = sumt (fun th => b2n (reading (t_pc th))) (c_thr s);
  v_wr : b2n (c_wr s) = sumt (fun th => b2n (writing (t_pc th))) (c_thr s);
  v_rw : c_wr s = true -> c_rd s = 0%nat;
  v_keys : NoDup (map fst (c_map s));
  v_map : forall k q, In (k, q) (c_map s) -> isobj (c_objs s) k 0 q;
  v_pc : forall t th, nth_error (c_thr s) t = Some th -> pcok (c_objs s) (c_map s) (t_pc th);
  v_log : forall t th, nth_error (c_thr s) t = Some th -> logok (c_objs s) th }.

Lemma alive s p : Inv s -> (1 <= total s p)%nat -> nth_error (c_rc s) p = Some (Some (Z.of_nat (total s p))).
Proof. intros I H. pose proof (v_rc s I p) as V. destruct (nth_error (c_rc s) p) as [[n|]|]; [destruct V as [-> _]; reflexivity|lia|lia]. Qed.
Lemma has_obj s p n : Inv s -> nth_error (c_rc s) p = Some n -> exists o, nth_error (c_objs s) p = Some o.
Proof. intros I H. destruct (nth_error (c_objs s) p) eqn:E; [eauto|]. apply nth_error_None in E. rewrite <- (v_len s I) in E. apply nth_error_None in E. congruence. Qed.

(** The lock excludes the others. *)
Lemma w_alone s t th t' th' : Inv s -> nth_error (c_thr s) t = Some th -> writing (t_pc th) = true -> nth_error (c_thr s) t' = Some th' -> t' <> t ->
  writing (t_pc th') = false /\ reading (t_pc th') = false.
Proof.
  intros I H W H' N. pose proof (v_wr s I) as Vw. pose proof (v_rd s I) as Vr. pose proof (v_rw s I) as Vx.
  pose proof (sumt_two (fun th => b2n (writing (t_pc th))) _ _ _ _ _ H H' ltac:(lia)) as T. pose proof (sumt_ge (fun th => b2n (reading (t_pc th))) _ _ _ H') as R. cbn beta in T, R. rewrite W in T. cbn [b2n] in T.
  assert (c_wr s = true) as Ew by (destruct (c_wr s); [reflexivity|cbn in Vw; lia]). rewrite Ew in Vw. cbn in Vw. specialize (Vx Ew).
  split; [destruct (writing (t_pc th')); [cbn in T; lia|reflexivity]|destruct (reading (t_pc th')); [cbn in R; lia|reflexivity]].
Qed.
Lemma clearing_writing c : clearing c = true -> writing c = true. Proof. destruct c; try discriminate; reflexivity. Qed.
Lemma nclear_zero l : (forall t th, nth_error l t = Some th -> clearing (t_pc th) = false) -> nclear l = 0%nat.
Proof.
  induction l as [|x l IH]; intros H; [reflexivity|]. unfold nclear in *. cbn. rewrite (H 0%nat x eq_refl). cbn. apply IH. intros t th Ht. apply (H (S t) th Ht).
Qed.
(** No clear is under way when a thread that is not clearing holds the lock. *)
Lemma no_clear s t th : Inv s -> nth_error (c_thr s) t = Some th -> reading (t_pc th) || writing (t_pc th) = true -> clearing (t_pc th) = false -> nclear (c_thr s) = 0%nat.
Proof.
  intros I H L C. apply nclear_zero. intros t' th' H'. destruct (Nat.eq_dec t' t) as [->|N]; [congruence|].
  destruct (clearing (t_pc th')) eqn:E; [|reflexivity]. apply clearing_writing in E. destruct (w_alone s t' th' t th I H' E H ltac:(lia)) as [W R]. rewrite W, R in L. discriminate.
Qed.
Lemma no_clear_unlocked s : Inv s -> c_wr s = false -> nclear (c_thr s) = 0%nat.
Proof.
  intros I W. apply nclear_zero. intros t th H. destruct (clearing (t_pc th)) eqn:E; [|reflexivity]. apply clearing_writing in E.
  pose proof (v_wr s I) as V. rewrite W in V. pose proof (sumt_ge (fun th => b2n (writing (t_pc th))) _ _ _ H) as G. cbn beta in G. rewrite E in G. cbn in *. lia.
Qed.

(** Pcs that do not depend on the table. *)
Lemma pcok_free objs m m' c : writing c = false -> reading c = false -> pcok objs m c -> pcok objs m' c.
Proof. destruct c; cbn; try discriminate; auto. Qed.

Lemma nth_thr s t th t' x : nth_error (c_thr s) t = Some th -> nth_error (upd (c_thr s) t x) t' = if (t' =? t)%nat then Some x else nth_error (c_thr s) t'.
Proof.
  intros H. destruct (Nat.eqb_spec t' t) as [->|N]; [apply upd_nth_eq; apply nth_error_Some; congruence|apply upd_nth_neq; lia].
Qed.

(** A step of thread [t] that may change the lock, the table, the counts: what has to
    be shown. *)
Lemma build s t th th' rc' m' rd' wr' :
  let s' := {| c_objs := c_objs s; c_rc := rc'; c_map := m'; c_rd := rd'; c_wr := wr'; c_thr := upd (c_thr s) t th' |} in
  Inv s -> nth_error (c_thr s) t = Some th -> length rc' = length (c_rc s) ->
  (forall p, match nth_error rc' p with
           | Some (Some n) => n = Z.of_nat (total s' p) /\ (total s' p + nfresh s' p >= 1)%nat
           | _ => total s' p = 0%nat /\ nfresh s' p = 0%nat
           end) ->
  (forall p, (nfresh s' p <= 1)%nat /\ (nfresh s' p = 1%nat -> total s' p = 0%nat)) ->
  (rd' + b2n (reading (t_pc th)) = c_rd s + b2n (reading (t_pc th')))%nat ->
  (b2n wr' + b2n (writing (t_pc th)) = b2n (c_wr s) + b2n (writing (t_pc th')))%nat ->
  (wr' = true -> rd' = 0%nat) ->
  NoDup (map fst m') -> (forall k q, In (k, q) m' -> isobj (c_objs s) k 0 q) ->
  (m' = c_map s \/ writing (t_pc th) = true) ->
  pcok (c_objs s) m' (t_pc th') -> logok (c_objs s) th' -> Inv s'.
Proof.
  intros s' I H Hl Hrc Hf Hrd Hwr Hx Hk Hm Hmap Hpc Hlog. constructor; subst s'; cbn [c_objs c_rc c_map c_rd c_wr c_thr] in *; auto.
  - rewrite Hl. apply I.
  - pose proof (v_rd s I). pose proof (sumt_upd (fun th => b2n (reading (t_pc th))) _ _ _ th' H). cbn beta in *. lia.
  - pose proof (v_wr s I). pose proof (sumt_upd (fun th => b2n (writing (t_pc th))) _ _ _ th' H). cbn beta in *. lia.
  - intros t' x Hx'. rewrite (nth_thr _ _ _ _ _ H) in Hx'. destruct (Nat.eqb_spec t' t) as [->|N]; [assert (x = th') as -> by congruence; exact Hpc|].
    destruct Hmap as [->|W]; [eapply (v_pc s I); eauto|]. destruct (w_alone s t th t' x I H W Hx' N). eapply pcok_free; eauto. eapply (v_pc s I); eauto.
  - intros t' x Hx'. rewrite (nth_thr _ _ _ _ _ H) in Hx'. destruct (Nat.eqb_spec t' t) as [->|N]; [assert (x = th') as -> by congruence; exact Hlog|]. eapply (v_log s I); eauto.
Qed.

Definition mk (s : cache) t th' rc' m' rd' wr' : cache :=
  {| c_objs := c_objs s; c_rc := rc'; c_map := m'; c_rd := rd'; c_wr := wr'; c_thr := upd (c_thr s) t th' |}.

Lemma total_same s t th th' rc' rd' wr' p : nth_error (c_thr s) t = Some th -> clearing (t_pc th') = clearing (t_pc th) ->
  (total (mk s t th' rc' (c_map s) rd' wr') p + refs p th = total s p + refs p th')%nat.
Proof.
  intros H C. unfold total, mapref, mk, nclear; cbn [c_thr c_map]. pose proof (sumt_upd (refs p) _ _ _ th' H).
  pose proof (sumt_upd (fun th => b2n (clearing (t_pc th))) _ _ _ th' H) as N. cbn beta in N. rewrite C in N.
  replace (sumt (fun th => b2n (clearing (t_pc th))) (upd (c_thr s) t th')) with (sumt (fun th => b2n (clearing (t_pc th))) (c_thr s)) by lia. lia.
Qed.
Lemma fresh_upd s t th th' rc' m' rd' wr' p : nth_error (c_thr s) t = Some th ->
  (nfresh (mk s t th' rc' m' rd' wr') p + b2n (fresh (t_pc th) p) = nfresh s p + b2n (fresh (t_pc th') p))%nat.
Proof. intros H. unfold nfresh, mk; cbn [c_thr]. exact (sumt_upd (fun th => b2n (fresh (t_pc th) p)) _ _ _ th' H). Qed.

(** Counts and totals unchanged. *)
Lemma keep s t th th' m' rd' wr' : Inv s -> nth_error (c_thr s) t = Some th ->
  (forall p, total (mk s t th' (c_rc s) m' rd' wr') p = total s p) -> (forall p, fresh (t_pc th') p = fresh (t_pc th) p) ->
  (rd' + b2n (reading (t_pc th)) = c_rd s + b2n (reading (t_pc th')))%nat ->
  (b2n wr' + b2n (writing (t_pc th)) = b2n (c_wr s) + b2n (writing (t_pc th')))%nat ->
  (wr' = true -> rd' = 0%nat) ->
  NoDup (map fst m') -> (forall k q, In (k, q) m' -> isobj (c_objs s) k 0 q) ->
  (m' = c_map s \/ writing (t_pc th) = true) ->
  pcok (c_objs s) m' (t_pc th') -> logok (c_objs s) th' -> Inv (mk s t th' (c_rc s) m' rd' wr').
Proof.
  intros I H Ht Hf. intros.
  assert (Hf' : forall p, nfresh (mk s t th' (c_rc s) m' rd' wr') p = nfresh s p) by (intros p; pose proof (fresh_upd s t th th' (c_rc s) m' rd' wr' p H) as F; rewrite Hf in F; lia).
  unfold mk in *. eapply build; eauto.
  - intros p. rewrite Ht, Hf'. apply I.
  - intros p. rewrite Ht, Hf'. apply I.
Qed.
(** Table unchanged, same references. *)
Lemma keep0 s t th th' rd' wr' : Inv s -> nth_error (c_thr s) t = Some th ->
  clearing (t_pc th') = clearing (t_pc th) -> (forall p, refs p th' = refs p th) -> (forall p, fresh (t_pc th') p = fresh (t_pc th) p) ->
  (rd' + b2n (reading (t_pc th)) = c_rd s + b2n (reading (t_pc th')))%nat ->
  (b2n wr' + b2n (writing (t_pc th)) = b2n (c_wr s) + b2n (writing (t_pc th')))%nat ->
  (wr' = true -> rd' = 0%nat) ->
  pcok (c_objs s) (c_map s) (t_pc th') -> logok (c_objs s) th' -> Inv (mk s t th' (c_rc s) (c_map s) rd' wr').
Proof.
  intros I H C R F. intros. eapply keep; eauto; try apply I.
  intros p. pose proof (total_same s t th th' (c_rc s) rd' wr' p H C). rewrite R in *. lia.
Qed.

(** One count goes up. *)
Lemma up s t th th' q rd' wr' : Inv s -> nth_error (c_thr s) t = Some th ->
  clearing (t_pc th') = clearing (t_pc th) -> (forall p, refs p th' = (refs p th + if (q =? p)%nat then 1 else 0)%nat) ->
  (1 <= total s q)%nat \/ t_pc th = S1 q ->
  (forall p, fresh (t_pc th') p = false) ->
  (forall p, fresh (t_pc th) p = true -> p = q) ->
  (rd' + b2n (reading (t_pc th)) = c_rd s + b2n (reading (t_pc th')))%nat ->
  (b2n wr' + b2n (writing (t_pc th)) = b2n (c_wr s) + b2n (writing (t_pc th')))%nat ->
  (wr' = true -> rd' = 0%nat) ->
  pcok (c_objs s) (c_map s) (t_pc th') -> logok (c_objs s) th' ->
  exists n, nth_error (c_rc s) q = Some (Some n) /\ Inv (mk s t th' (upd (c_rc s) q (Some (n + 1))) (c_map s) rd' wr').
Proof.
  intros I H C R A F1 F2. intros.
  assert (Hq : nth_error (c_rc s) q = Some (Some (Z.of_nat (total s q)))).
  { destruct A as [A|A]; [apply alive; auto|]. pose proof (v_rc s I q) as V. pose proof (sumt_ge (fun th => b2n (fresh (t_pc th) q)) _ _ _ H) as G. cbn beta in G. rewrite A in G. cbn in G. rewrite Nat.eqb_refl in G.
    destruct (nth_error (c_rc s) q) as [[n|]|]; [destruct V as [-> _]; reflexivity|unfold nfresh in V; cbn in G; lia|unfold nfresh in V; cbn in G; lia]. }
  exists (Z.of_nat (total s q)). split; [exact Hq|].
  set (rc' := upd (c_rc s) q (Some (Z.of_nat (total s q) + 1))).
  assert (T : forall p, total (mk s t th' rc' (c_map s) rd' wr') p = (total s p + if (q =? p)%nat then 1 else 0)%nat) by (intros p; pose proof (total_same s t th th' rc' rd' wr' p H C); rewrite R in *; lia).
  assert (Ff : forall p, (nfresh (mk s t th' rc' (c_map s) rd' wr') p + b2n (fresh (t_pc th) p) = nfresh s p)%nat) by (intros p; pose proof (fresh_upd s t th th' rc' (c_map s) rd' wr' p H) as F; rewrite F1 in F; cbn [b2n] in F; lia).
  assert (Fz : nfresh (mk s t th' rc' (c_map s) rd' wr') q = 0%nat).
  { specialize (Ff q). pose proof (v_fresh s I q) as [V1 V2]. destruct A as [A|A]; [|rewrite A in Ff; cbn [fresh] in Ff; rewrite Nat.eqb_refl in Ff; cbn [b2n] in Ff; lia].
    destruct (nfresh s q) as [|[|]]; [lia|specialize (V2 eq_refl); lia|lia]. }
  subst rc'. unfold mk in *. eapply build; eauto; try apply I.
  - apply upd_length.
  - intros p. rewrite T. destruct (Nat.eqb_spec q p) as [<-|N].
    + rewrite upd_nth_eq by (apply nth_error_Some; congruence). cbv iota. split; [rewrite Nat2Z.inj_add; reflexivity|lia].
    + rewrite upd_nth_neq by lia. cbv iota. specialize (Ff p). assert (fresh (t_pc th) p = false) as E by (destruct (fresh (t_pc th) p) eqn:E; [apply F2 in E; congruence|reflexivity]). rewrite E in Ff. cbn [b2n] in Ff.
      pose proof (v_rc s I p) as V. destruct (nth_error (c_rc s) p) as [[n|]|]; lia.
  - intros p. rewrite T. specialize (Ff p). pose proof (v_fresh s I p) as [V1 V2]. destruct (Nat.eqb_spec q p) as [<-|N]; cbv iota; [lia|]. split; [lia|]. intros E. destruct (fresh (t_pc th) p) eqn:E'; [apply F2 in E'; congruence|cbn [b2n] in Ff; rewrite V2 by lia; reflexivity].
Qed.

(** One count goes down. *)
Lemma down s t th th' q rd' wr' : Inv s -> nth_error (c_thr s) t = Some th ->
  clearing (t_pc th') = clearing (t_pc th) -> (forall p, refs p th = (refs p th' + if (q =? p)%nat then 1 else 0)%nat) ->
  (forall p, fresh (t_pc th') p = fresh (t_pc th) p) ->
  (rd' + b2n (reading (t_pc th)) = c_rd s + b2n (reading (t_pc th')))%nat ->
  (b2n wr' + b2n (writing (t_pc th)) = b2n (c_wr s) + b2n (writing (t_pc th')))%nat ->
  (wr' = true -> rd' = 0%nat) ->
  pcok (c_objs s) (c_map s) (t_pc th') -> logok (c_objs s) th' ->
  exists n, nth_error (c_rc s) q = Some (Some n) /\ Inv (mk s t th' (upd (c_rc s) q (if n - 1 =? 0 then None else Some (n - 1))) (c_map s) rd' wr').
Proof.
  intros I H C R F1. intros.
  assert (A : (1 <= total s q)%nat).
  { unfold total. pose proof (sumt_ge (refs q) _ _ _ H) as G. rewrite (R q), Nat.eqb_refl in G. lia. }
  pose proof (alive s q I A) as Hq. exists (Z.of_nat (total s q)). split; [exact Hq|].
  set (rc' := upd (c_rc s) q (if Z.of_nat (total s q) - 1 =? 0 then None else Some (Z.of_nat (total s q) - 1))).
  assert (T : forall p, (total (mk s t th' rc' (c_map s) rd' wr') p + if (q =? p)%nat then 1 else 0)%nat = total s p) by (intros p; pose proof (total_same s t th th' rc' rd' wr' p H C); rewrite (R p) in *; lia).
  assert (Ff : forall p, (nfresh (mk s t th' rc' (c_map s) rd' wr') p = nfresh s p)%nat) by (intros p; pose proof (fresh_upd s t th th' rc' (c_map s) rd' wr' p H) as F; rewrite F1 in F; lia).
  subst rc'. unfold mk in *. eapply build; eauto; try apply I.
  - apply upd_length.
  - intros p. rewrite Ff. specialize (T p). destruct (Nat.eqb_spec q p) as [E|N]; [subst p|].
    + rewrite upd_nth_eq by (apply nth_error_Some; congruence). pose proof (v_fresh s I q). destruct (Z.eqb_spec (Z.of_nat (total s q) - 1) 0); lia.
    + rewrite upd_nth_neq by lia. pose proof (v_rc s I p) as V. destruct (nth_error (c_rc s) p) as [[n|]|]; lia.
  - intros p. rewrite Ff. specialize (T p). pose proof (v_fresh s I p) as [V1 V2]. split; [exact V1|]. intros E. specialize (V2 E). lia.
Qed.

(** ** Facts about the table *)
Lemma lookup_in m oid p : lookup m oid = Some p -> In (oid, p) m.
Proof. induction m as [|[k q] m IH]; cbn [lookup]; [discriminate|]. destruct (Z.eqb_spec k oid) as [->|]; [intros H; injection H as ->; left; reflexivity|right; auto]. Qed.
Lemma lookup_none m oid : lookup m oid = None -> ~ In oid (map fst m).
Proof. induction m as [|[k q] m IH]; cbn; [auto|]. destruct (Z.eqb_spec k oid); [discriminate|]. intros H [?|?]; [contradiction|]. apply IH; auto. Qed.
Lemma in_snd (m : list (Z * nat)) k p : In (k, p) m -> In p (map snd m).
Proof. intros H. apply (in_map snd) in H. exact H. Qed.
Lemma put_new m oid p : lookup m oid = None -> put m oid p = m ++ [(oid, p)].
Proof. induction m as [|[k q] m IH]; cbn; [auto|]. destruct (k =? oid); [discriminate|]. intros H. rewrite IH by exact H. reflexivity. Qed.
Lemma put_fst m oid p q : lookup m oid = Some q -> map fst (put m oid p) = map fst m.
Proof. induction m as [|[k r] m IH]; cbn; [discriminate|]. destruct (Z.eqb_spec k oid) as [->|]; [reflexivity|]. intros H. cbn. rewrite IH by exact H. reflexivity. Qed.
Lemma put_cnt m oid p q x : lookup m oid = Some q -> (cnt x (map snd (put m oid p)) + (if (q =? x)%nat then 1 else 0) = cnt x (map snd m) + (if (p =? x)%nat then 1 else 0))%nat.
Proof.
  induction m as [|[k r] m IH]; cbn [lookup put]; [discriminate|]. destruct (Z.eqb_spec k oid) as [->|].
  - intros H. injection H as ->. cbn [map snd]. rewrite !cnt_cons. lia.
  - intros H. specialize (IH H). cbn [map snd]. rewrite !cnt_cons. lia.
Qed.
Lemma put_in m oid p : forall k q, In (k, q) (put m oid p) -> In (k, q) m \/ (k = oid /\ q = p).
Proof.
  induction m as [|[k' r] m IH]; cbn [put]; intros k q H; [destruct H as [H|[]]; injection H as <- <-; auto|].
  destruct (k' =? oid); [destruct H as [H|H]; [injection H as <- <-; auto|left; right; exact H]|]. destruct H as [H|H]; [left; left; exact H|]. apply IH in H as [?|?]; [left; right; assumption|auto].
Qed.
Lemma put_has m oid p : In p (map snd (put m oid p)).
Proof. induction m as [|[k q] m IH]; cbn; [auto|]. destruct (k =? oid); cbn; auto. Qed.
Lemma put_length m oid p : (length m <= length (put m oid p))%nat.
Proof. induction m as [|[k q] m IH]; cbn; [lia|]. destruct (k =? oid); cbn; lia. Qed.
Lemma remove_cnt m : forall i k q x, NoDup (map fst m) -> nth_error m i = Some (k, q) -> cnt x (map snd m) = (cnt x (map snd (remove_key m k)) + if (q =? x)%nat then 1 else 0)%nat.
Proof.
  induction m as [|[k' r] m IH]; intros [|i] k q x ND H; try discriminate; cbn [nth_error remove_key] in *.
  - injection H as -> ->. rewrite Z.eqb_refl. cbn [map snd]. rewrite cnt_cons. lia.
  - cbn [map fst] in ND. inversion ND as [|? ? Nin ND']; subst. destruct (Z.eqb_spec k' k) as [->|].
    + exfalso. apply Nin. apply nth_error_In in H. apply (in_map fst) in H. exact H.
    + cbn [map snd]. rewrite !cnt_cons. specialize (IH i k q x ND' H). lia.
Qed.
Lemma remove_length m : forall i k q, nth_error m i = Some (k, q) -> S (length (remove_key m k)) = length m.
Proof.
  induction m as [|[k' r] m IH]; intros [|i] k q H; try discriminate; cbn [nth_error remove_key] in *.
  - injection H as -> ->. rewrite Z.eqb_refl. reflexivity.
  - destruct (k' =? k); [reflexivity|]. cbn [length]. rewrite (IH i k q H). reflexivity.
Qed.
Lemma remove_in m k : forall x, In x (remove_key m k) -> In x m.
Proof. induction m as [|[k' r] m IH]; cbn; [auto|]. destruct (k' =? k); [auto|]. intros x [?|?]; auto. Qed.
Lemma remove_keys m k : NoDup (map fst m) -> NoDup (map fst (remove_key m k)).
Proof.
  induction m as [|[k' r] m IH]; cbn; [auto|]. intros ND. inversion ND as [|? ? Nin ND']; subst. destruct (k' =? k); [exact ND'|]. cbn. constructor; [|apply IH; exact ND'].
  intros H. apply Nin. apply in_map_iff in H as ([a b] & E & Hab). apply remove_in in Hab. apply (in_map fst) in Hab. cbn in *. congruence.
Qed.

(** An entry of the table is alive while no clear is under way. *)
Lemma map_alive s q : Inv s -> nclear (c_thr s) = 0%nat -> In q (map snd (c_map s)) -> (1 <= total s q)%nat.
Proof. intros I N H. unfold total, mapref. rewrite N. apply cnt_in in H. lia. Qed.
Lemma deref_ok s p : Inv s -> (1 <= total s p)%nat -> exists o, deref s p = Ok o /\ nth_error (c_objs s) p = Some o.
Proof. intros I H. pose proof (alive s p I H) as A. destruct (has_obj s p _ I A) as (o & E). exists o. unfold deref. rewrite A, E. auto. Qed.
Lemma held_total s t th p : nth_error (c_thr s) t = Some th -> In p (t_held th ++ pcrefs (t_pc th)) -> (1 <= total s p)%nat.
Proof. intros H Hp. pose proof (sumt_ge (refs p) _ _ _ H) as G. unfold refs in G at 1. apply cnt_in in Hp. unfold total. lia. Qed.
Lemma clear_refs s t th th' m' rd' wr' p : nth_error (c_thr s) t = Some th ->
  (total (mk s t th' (c_rc s) m' rd' wr') p + refs p th + match nclear (c_thr s) with O => cnt p (map snd (c_map s)) | _ => 0 end
   = total s p + refs p th' + match nclear (upd (c_thr s) t th') with O => cnt p (map snd m') | _ => 0 end)%nat.
Proof. intros H. unfold total, mapref, mk; cbn [c_thr c_map]. pose proof (sumt_upd (refs p) _ _ _ th' H). lia. Qed.
Lemma nclear_upd s t th th' : nth_error (c_thr s) t = Some th -> (nclear (upd (c_thr s) t th') + b2n (clearing (t_pc th)) = nclear (c_thr s) + b2n (clearing (t_pc th')))%nat.
Proof. intros H. exact (sumt_upd (fun th => b2n (clearing (t_pc th))) _ _ _ th' H). Qed.

Definition good (r : res cache) : Prop := match r with Ok s => Inv s | Err _ => True | _ => False end.

Ltac refs_tac := intros ?; unfold refs; cbn [t_held t_pc go give pcrefs kref app]; rewrite ?app_nil_r, ?cnt_app, ?cnt_cons, ?cnt_nil; try lia.
Ltac lock_tac := cbn [t_pc go give reading writing b2n]; lia.

Lemma inv_incref s t th th' q : Inv s -> nth_error (c_thr s) t = Some th ->
  clearing (t_pc th') = clearing (t_pc th) -> (forall p, refs p th' = (refs p th + if (q =? p)%nat then 1 else 0)%nat) ->
  (1 <= total s q)%nat \/ t_pc th = S1 q -> (forall p, fresh (t_pc th') p = false) -> (forall p, fresh (t_pc th) p = true -> p = q) ->
  reading (t_pc th') = reading (t_pc th) -> writing (t_pc th') = writing (t_pc th) ->
  pcok (c_objs s) (c_map s) (t_pc th') -> logok (c_objs s) th' ->
  good (do s <- incref s q ;; Ok (with_thr s t th')).
Proof.
  intros I H C R A F1 F2 Rd Wr P Lg. destruct (up s t th th' q (c_rd s) (c_wr s) I H C R A F1 F2 ltac:(rewrite Rd; lia) ltac:(rewrite Wr; lia) (v_rw s I) P Lg) as (n & Hn & I').
  unfold incref. rewrite Hn. exact I'.
Qed.
Lemma inv_decref s t th th' q : Inv s -> nth_error (c_thr s) t = Some th ->
  clearing (t_pc th') = clearing (t_pc th) -> (forall p, refs p th = (refs p th' + if (q =? p)%nat then 1 else 0)%nat) ->
  (forall p, fresh (t_pc th') p = fresh (t_pc th) p) ->
  reading (t_pc th') = reading (t_pc th) -> writing (t_pc th') = writing (t_pc th) ->
  pcok (c_objs s) (c_map s) (t_pc th') -> logok (c_objs s) th' ->
  good (do s <- decref s q ;; Ok (with_thr s t th')).
Proof.
  intros I H C R F Rd Wr P Lg. destruct (down s t th th' q (c_rd s) (c_wr s) I H C R F ltac:(rewrite Rd; lia) ltac:(rewrite Wr; lia) (v_rw s I) P Lg) as (n & Hn & I').
  unfold decref. rewrite Hn. exact I'.
Qed.
Lemma inv_move s t th th' : Inv s -> nth_error (c_thr s) t = Some th ->
  clearing (t_pc th') = clearing (t_pc th) -> (forall p, refs p th' = refs p th) -> (forall p, fresh (t_pc th') p = fresh (t_pc th) p) ->
  reading (t_pc th') = reading (t_pc th) -> writing (t_pc th') = writing (t_pc th) ->
  pcok (c_objs s) (c_map s) (t_pc th') -> logok (c_objs s) th' -> good (Ok (with_thr s t th')).
Proof.
  intros I H C R F Rd Wr P Lg. exact (keep0 s t th th' (c_rd s) (c_wr s) I H C R F ltac:(rewrite Rd; lia) ltac:(rewrite Wr; lia) (v_rw s I) P Lg).
Qed.
