(** C54, C55: reading objects from a pack. *)
From Verif Require Import Base PackHdrSpec PackHdrModel PackHdrProps VarintSpec DeltaSpec DeltaModel DeltaApplyProofs PackReadModel PackReadSpec PackReadProofs PackReadMain.

Definition label_ok (l : label) : Prop := match l with Start _ off => 0 <= off | Step _ => True end.

Lemma run_sinv p ls : pack_ok p -> Forall label_ok ls -> forall s, sinv p s -> sinv p (sys_run p s ls).
Proof.
  intros P. induction ls as [|l ls IH]; intros F s I0; [exact I0|]. inversion_clear F as [|? ? Hl Hr]. cbn [sys_run fold_left]. apply IH; [exact Hr|].
  destruct l as [i off|i]; cbn [sys_step].
  - destruct (nth_error (s_threads s) i) as [t|] eqn:N; [|exact I0]. destruct I0 as [CI TI].
    assert (G : holds t = None -> sinv p {| s_cache := s_cache s; s_threads := upd (s_threads s) i (Chain off off []) |}).
    { intros H. apply sinv_upd; auto. - eapply cinv_frame; eauto. - cbn [tinv]. split; [exact Hl|constructor]. - cbn. intros o X. injection X as <-. exact Hl. }
    destruct t; try (split; assumption); apply G; reflexivity.
  - destruct (nth_error (s_threads s) i) as [t|] eqn:N; [|exact I0]. destruct (tstep p (s_cache s) t) as [c t'] eqn:E. eapply tstep_sinv; eassumption.
Qed.
Lemma sinv0 p n : sinv p (sys0 n).
Proof.
  assert (R : forall i t, nth_error (repeat Idle n) i = Some t -> t = Idle). { intros i t N. apply nth_error_In in N. apply repeat_spec in N. exact N. }
  split; [split|]; cbn [s_cache s_threads sys0 empty_cache c_map c_used c_next total map].
  - constructor. - discriminate. - intros i t k id N. rewrite (R _ _ N). discriminate. - reflexivity. - unfold LIMIT. lia.
  - intros i t N. rewrite (R _ _ N). split; [constructor|discriminate].
Qed.

(** Any number of threads, any requests, any interleaving, cold or warm cache: no
    thread ever touches a freed cache entry; a read that has finished gave the object
    the pack holds there, and one that failed was asked for something that is not an
    object; everything in the cache is the object at its offset; and the cache's
    accounting is exact and within its limit. *)
Theorem C54_read_any_schedule : forall p n ls, pack_ok p -> inflates_bytes p -> Forall label_ok ls ->
  let s := sys_run p (sys0 n) ls in
  (forall i, nth_error (s_threads s) i <> Some Crash) /\
  (forall i off r ty d, nth_error (s_threads s) i = Some (Done off r) -> (r = Ok (ty, d) <-> denotes p off ty d)) /\
  (forall off e, In (off, e) (c_map (s_cache s)) -> denotes p off (fst (ce_obj e)) (snd (ce_obj e))) /\
  c_used (s_cache s) = fold_right Z.add 0 (map (fun ke => olen (ce_obj (snd ke))) (c_map (s_cache s))) /\
  c_used (s_cache s) <= 16 * 1024 * 1024.
Proof.
  intros p n ls P Z0 F s. destruct (run_sinv p ls P F _ (sinv0 p n)) as [CI TI]. fold s in CI, TI. repeat apply conj.
  - intros i N. destruct (TI i _ N) as [[] _].
  - intros i off r ty d N. destruct (TI i _ N) as [T S0]. rewrite (T ty d). apply mden_iff; try assumption. apply S0. reflexivity.
  - intros off e I0. assert (FE : map_find (c_map (s_cache s)) off = Some e).
    { pose proof (ci_nodup _ _ _ CI) as ND. clear - ND I0. induction (c_map (s_cache s)) as [|[j x] m IH]; [destruct I0|]. cbn [map fst] in ND. inversion_clear ND as [|? ? NI ND']. cbn [map_find]. destruct I0 as [X|I0].
      - injection X as -> ->. rewrite Z.eqb_refl. reflexivity.
      - destruct (Z.eqb_spec j off) as [->|]; [exfalso; apply NI; apply in_map_iff; exists (off, e); auto|apply IH; assumption]. }
    destruct (ci_entry _ _ _ CI off e FE) as (Ho & M & _). apply mden_iff; assumption.
  - rewrite (ci_used _ _ _ CI). clear. induction (c_map (s_cache s)) as [|[j x] m IH]; [reflexivity|]. cbn [total map fold_right snd]. rewrite IH. reflexivity.
  - pose proof (ci_limit _ _ _ CI). unfold LIMIT in *. lia.
Qed.
Print Assumptions C54_read_any_schedule.

(** The object at an offset is unique. *)
Theorem C54_deterministic : forall p off ty d ty' d', pack_ok p -> inflates_bytes p -> 0 <= off ->
  denotes p off ty d -> denotes p off ty' d' -> ty = ty' /\ d = d'.
Proof. intros p off ty d ty' d' P Z0 Ho A B. apply mden_iff in A; try assumption. apply mden_iff in B; try assumption. eapply mden_fun; eassumption. Qed.
Print Assumptions C54_deterministic.

(** ** Reading finishes *)

(** The entry at [off] is a delta (good or not) against the entry at [base]. *)
Definition names_base (p : pack) (off base : Z) : Prop :=
  0 <= off < pk_size p /\
  exists h ty size nm rest, rest_at p off = h ++ nm ++ rest /\ (length h <= 10)%nat /\ header_code h ty size /\ base_name p off ty nm base /\
    off + Z.of_nat (length h) <= pk_size p - Z.of_nat (pk_oid p).
Lemma names_iff p off base : pack_ok p -> 0 <= off -> (exists e, chain_elem p off = Ok (e, Some base)) <-> names_base p off base.
Proof.
  intros P Ho. unfold chain_elem. pose proof (po_size p P) as PS. split.
  - intros (e & C). destruct (unpack_header p off) as [[[s t] c]| | |] eqn:E; cbn [bindr] in C; try discriminate.
    apply header_ok in E as (Hl & h & rest & den & Er & L & Hc & -> & ->); [|exact P|exact Ho].
    destruct (is_delta t) eqn:D; [|discriminate]. destruct (get_delta_base p (off + Z.of_nat (length h)) t off) as [[npos b]| | |] eqn:B; cbn [bindr] in C; try discriminate.
    injection C as <- <-. apply base_ok in B as (HB & nm & rest' & Er' & Bn & ->); [|exact P|lia|lia].
    split; [lia|]. exists h, t, den, nm, rest'. rewrite rest_add, Er, skipn_app, skipn_all, Nat.sub_diag in Er' by exact Ho. cbn [app skipn] in Er'. subst rest. auto 8.
  - intros (Hl & h & ty & size & nm & rest & Er & L & Hc & Bn & Hp). rewrite (header_find p off h (nm ++ rest) ty size P Hl Er L Hc). cbn [bindr].
    rewrite (base_type _ _ _ _ _ Bn). rewrite (base_find p off (off + Z.of_nat (length h)) ty nm rest base); try exact P; try lia; try exact Bn.
    + cbn [bindr]. eexists. reflexivity.
    + rewrite rest_add, Er, skipn_app, skipn_all, Nat.sub_diag by exact Ho. reflexivity.
Qed.
(** The chain from [off] ends. *)
Inductive ends (p : pack) (off : Z) : Prop := ends_ : (forall base, names_base p off base -> ends p base) -> ends p off.

Lemma upd_upd {A} (l : list A) i x y : upd (upd l i x) i y = upd l i y.
Proof. revert i. induction l as [|a l IH]; intros [|i]; cbn [upd]; [reflexivity..|]. rewrite IH. reflexivity. Qed.
Lemma nth_upd_same {A} (l : list A) i x t : nth_error l i = Some t -> nth_error (upd l i x) i = Some x.
Proof. revert i. induction l as [|a l IH]; intros [|i] N; cbn [upd nth_error] in *; try discriminate; [reflexivity|apply IH; exact N]. Qed.

(** Only thread [i] is busy. *)
Definition alone (s : sys) (i : nat) : Prop := forall j t, nth_error (s_threads s) j = Some t -> j <> i -> holds t = None.
Definition finishes (p : pack) (s : sys) (i : nat) : Prop :=
  exists n s' off r, sys_run p s (repeat (Step i) n) = s' /\ nth_error (s_threads s') i = Some (Done off r).

Section Alone.
  Variable p : pack.
  Hypothesis P : pack_ok p.
  Lemma finish_step s i t c t' : nth_error (s_threads s) i = Some t -> tstep p (s_cache s) t = (c, t') ->
    finishes p {| s_cache := c; s_threads := upd (s_threads s) i t' |} i -> finishes p s i.
  Proof.
    intros N E (n & s' & off & r & R & D). exists (S n), s', off, r. split; [|exact D]. cbn [repeat sys_run fold_left]. cbn [sys_step]. rewrite N, E. exact R.
  Qed.
  Lemma alone_upd s i c t : alone s i -> alone {| s_cache := c; s_threads := upd (s_threads s) i t |} i.
  Proof. intros A j u N NE. cbn [s_threads] in N. apply nth_upd_cases in N as [[-> _]|[_ N]]; [contradiction|eapply A; eassumption]. Qed.
  Lemma finish_done s i off r : nth_error (s_threads s) i = Some (Done off r) -> finishes p s i.
  Proof. intros N. exists O, s, off, r. split; [reflexivity|exact N]. Qed.
  Lemma step_sinv s i t c t' : sinv p s -> nth_error (s_threads s) i = Some t -> tstep p (s_cache s) t = (c, t') ->
    sinv p {| s_cache := c; s_threads := upd (s_threads s) i t' |} /\ nth_error (s_threads {| s_cache := c; s_threads := upd (s_threads s) i t' |}) i = Some t'.
  Proof. intros I0 N E. split; [eapply tstep_sinv; eassumption|]. cbn [s_threads]. eapply nth_upd_same. exact N. Qed.

  (** With the base at hand, all deltas get applied. *)
  Lemma finish_add st : forall s i st0 o key, sinv p s -> alone s i -> nth_error (s_threads s) i = Some (Add st0 o key st) -> finishes p s i.
  Proof.
    induction st as [|e st IH]; intros s i st0 o key I0 A N.
    - eapply finish_step; [exact N|reflexivity|]. eapply finish_done. cbn [s_threads]. eapply nth_upd_same. exact N.
    - assert (G : forall s' b, sinv p s' -> alone s' i -> nth_error (s_threads s') i = Some (apply_elem p st0 (fst o) b e st) -> finishes p s' i).
      { intros s' b I1 A1 N1. unfold apply_elem in N1. destruct (bindr _ _) as [d|x| |] in N1; [eapply IH; eassumption|eapply finish_done; exact N1..]. }
      destruct (cache_add (s_cache s) o key) as [|id c|c] eqn:CA.
      + assert (E : tstep p (s_cache s) (Add st0 o key (e :: st)) = (s_cache s, Apply st0 (fst o) (Own (snd o)) (e :: st))) by (cbn [tstep]; rewrite CA; reflexivity).
        eapply finish_step; [exact N|exact E|]. destruct (step_sinv _ _ _ _ _ I0 N E) as [I1 N1]. pose proof (alone_upd s i (s_cache s) (Apply st0 (fst o) (Own (snd o)) (e :: st)) A) as A1.
        eapply finish_step; [exact N1|reflexivity|]. destruct (step_sinv _ _ _ _ _ I1 N1 eq_refl) as [I2 N2]. eapply G; [exact I2|apply alone_upd; exact A1|exact N2].
      + assert (E : tstep p (s_cache s) (Add st0 o key (e :: st)) = (c, Apply st0 (fst o) (Held key id) (e :: st))) by (cbn [tstep]; rewrite CA; reflexivity).
        eapply finish_step; [exact N|exact E|]. destruct (step_sinv _ _ _ _ _ I0 N E) as [I1 N1]. pose proof (alone_upd s i c (Apply st0 (fst o) (Held key id) (e :: st)) A) as A1.
        set (s1 := {| s_cache := c; s_threads := upd (s_threads s) i (Apply st0 (fst o) (Held key id) (e :: st)) |}) in *.
        destruct (ci_held _ _ _ (proj1 I1) i _ key id N1 eq_refl) as (e0 & F & Eid).
        assert (E1 : tstep p (s_cache s1) (Apply st0 (fst o) (Held key id) (e :: st)) = (s_cache s1, Drop key id (apply_elem p st0 (fst o) (snd (ce_obj e0)) e st))).
        { cbn [tstep]. unfold cache_read. rewrite F, Eid, Z.eqb_refl. reflexivity. }
        eapply finish_step; [exact N1|exact E1|]. destruct (step_sinv _ _ _ _ _ I1 N1 E1) as [I2 N2]. pose proof (alone_upd s1 i (s_cache s1) (Drop key id (apply_elem p st0 (fst o) (snd (ce_obj e0)) e st)) A1) as A2.
        set (s2 := {| s_cache := s_cache s1; s_threads := upd (s_threads s1) i (Drop key id (apply_elem p st0 (fst o) (snd (ce_obj e0)) e st)) |}) in *.
        assert (E2 : tstep p (s_cache s2) (Drop key id (apply_elem p st0 (fst o) (snd (ce_obj e0)) e st)) = ({| c_used := c_used c; c_next := c_next c; c_map := map_set (c_map c) key (add_ref e0 (-1)) |}, apply_elem p st0 (fst o) (snd (ce_obj e0)) e st)).
        { cbn [tstep]. unfold cache_dec. change (c_map (s_cache s2)) with (c_map (s_cache s1)). rewrite F, Eid, Z.eqb_refl. reflexivity. }
        eapply finish_step; [exact N2|exact E2|]. destruct (step_sinv _ _ _ _ _ I2 N2 E2) as [I3 N3]. eapply G; [exact I3|apply alone_upd; exact A2|exact N3].
      + exfalso. unfold cache_add in CA. destruct (Z.ltb_spec SIZE_LIMIT (olen o)) as [|SL]; [discriminate|]. destruct (map_find (c_map (s_cache s)) key); [discriminate|].
        destruct (Z.ltb_spec LIMIT (c_used (s_cache s) + olen o)) as [L|L].
        * destruct (evict (c_map (s_cache s)) (c_used (s_cache s))) as [m u] eqn:Ev. apply (evict_idle p _ _ _ _ (proj1 I0)) in Ev as [-> ->].
          -- destruct (Z.ltb_spec LIMIT (0 + olen o)); [unfold LIMIT, SIZE_LIMIT in *; lia|discriminate].
          -- intros j t Nj. destruct (Nat.eq_dec j i) as [->|NE]; [rewrite N in Nj; injection Nj as <-; reflexivity|eapply A; eassumption].
        * destruct (Z.ltb_spec LIMIT (c_used (s_cache s) + olen o)); [lia|discriminate].
  Qed.
  Lemma finish_held st s i st0 ty key id : sinv p s -> alone s i -> nth_error (s_threads s) i = Some (Apply st0 ty (Held key id) st) -> finishes p s i.
  Proof.
    intros I1 A1 N1. destruct (ci_held _ _ _ (proj1 I1) i _ key id N1 eq_refl) as (e0 & F & Eid).
    assert (G : forall nx, tstep p (s_cache s) (Apply st0 ty (Held key id) st) = (s_cache s, Drop key id nx) ->
       (forall s', sinv p s' -> alone s' i -> nth_error (s_threads s') i = Some nx -> finishes p s' i) -> finishes p s i).
    { intros nx E1 K. eapply finish_step; [exact N1|exact E1|]. destruct (step_sinv _ _ _ _ _ I1 N1 E1) as [I2 N2]. pose proof (alone_upd s i (s_cache s) (Drop key id nx) A1) as A2.
      set (s2 := {| s_cache := s_cache s; s_threads := upd (s_threads s) i (Drop key id nx) |}) in *.
      assert (E2 : tstep p (s_cache s2) (Drop key id nx) = ({| c_used := c_used (s_cache s); c_next := c_next (s_cache s); c_map := map_set (c_map (s_cache s)) key (add_ref e0 (-1)) |}, nx)).
      { cbn [tstep]. unfold cache_dec. change (c_map (s_cache s2)) with (c_map (s_cache s)). rewrite F, Eid, Z.eqb_refl. reflexivity. }
      eapply finish_step; [exact N2|exact E2|]. destruct (step_sinv _ _ _ _ _ I2 N2 E2) as [I3 N3]. eapply K; [exact I3|apply alone_upd; exact A2|exact N3]. }
    destruct st as [|e st].
    - eapply G; [cbn [tstep]; unfold cache_read; rewrite F, Eid, Z.eqb_refl; reflexivity|]. intros s' _ _ N'. eapply finish_done. exact N'.
    - eapply G; [cbn [tstep]; unfold cache_read; rewrite F, Eid, Z.eqb_refl; reflexivity|]. intros s' I' A' N'. unfold apply_elem in N'.
      destruct (bindr _ _) as [d|x| |] in N'; [eapply finish_add; eassumption|eapply finish_done; exact N'..].
  Qed.
  Lemma finish_chain off : ends p off -> 0 <= off -> forall s i st0 st, sinv p s -> alone s i -> nth_error (s_threads s) i = Some (Chain st0 off st) -> finishes p s i.
  Proof.
    induction 1 as [off _ IH]. intros Ho s i st0 st I0 A N. destruct (cache_get (s_cache s) off) as [[e c']|] eqn:G.
    - assert (E : tstep p (s_cache s) (Chain st0 off st) = (c', Apply st0 (fst (ce_obj e)) (Held off (ce_id e)) st)) by (cbn [tstep]; rewrite G; reflexivity).
      eapply finish_step; [exact N|exact E|]. destruct (step_sinv _ _ _ _ _ I0 N E) as [I1 N1]. eapply finish_held; [exact I1|apply alone_upd; exact A|exact N1].
    - assert (E : exists t', tstep p (s_cache s) (Chain st0 off st) = (s_cache s, t') /\
        t' = match chain_elem p off with Ok (e, Some base) => Chain st0 base (e :: st) | Ok (e, None) => base_elem p st0 e st | Err x => Done st0 (Err x) | UB => Done st0 UB | NoFuel => Done st0 NoFuel end).
      { eexists. split; [cbn [tstep]; rewrite G; reflexivity|reflexivity]. }
      destruct E as (t' & E & Et). eapply finish_step; [exact N|exact E|]. destruct (step_sinv _ _ _ _ _ I0 N E) as [I1 N1]. pose proof (alone_upd s i (s_cache s) t' A) as A1.
      destruct (chain_elem p off) as [[e [b|]]|x| |] eqn:C; subst t'; try (eapply finish_done; exact N1).
      + destruct (base_nonneg p off e b P Ho C) as [Hb _]. eapply IH; [apply names_iff; eauto|exact Hb|exact I1|exact A1|exact N1].
      + unfold base_elem in *. destruct ((1 <=? e_type e) && (e_type e <=? 4)); [|eapply finish_done; exact N1].
        destruct (unpack_compressed p (e_pos e) (e_size e)) as [d|x| |]; [eapply finish_add; eassumption|eapply finish_done; exact N1..].
  Qed.
End Alone.

(** Whatever happened before, a thread that asks for an object while the others are
    idle gets an answer, provided the chain of deltas ends ([ends]). *)
Theorem C54_read_finishes_partial : forall p n ls i t off, pack_ok p -> Forall label_ok ls -> 0 <= off -> ends p off ->
  let s := sys_run p (sys0 n) ls in
  nth_error (s_threads s) i = Some t -> (t = Idle \/ exists o r, t = Done o r) ->
  (forall j u, nth_error (s_threads s) j = Some u -> j <> i -> u = Idle \/ exists o r, u = Done o r) ->
  exists k o r, nth_error (s_threads (sys_run p (sys_run p (sys0 n) ls) (Start i off :: repeat (Step i) k))) i = Some (Done o r).
Proof.
  intros p n ls i t off P F Ho E s N T A.
  assert (I1 : sinv p (sys_step p s (Start i off))).
  { change (sys_step p s (Start i off)) with (sys_run p s [Start i off]). apply run_sinv; [exact P|constructor; [exact Ho|constructor]|]. apply run_sinv; [exact P|exact F|apply sinv0]. }
  assert (E1 : sys_step p s (Start i off) = {| s_cache := s_cache s; s_threads := upd (s_threads s) i (Chain off off []) |}).
  { cbn [sys_step]. rewrite N. destruct T as [->|(o & r & ->)]; reflexivity. }
  destruct (finish_chain p P off E Ho (sys_step p s (Start i off)) i off []) as (k & s' & o & r & R & D).
  - exact I1.
  - rewrite E1. apply alone_upd. intros j u Nj NE. destruct (A j u Nj NE) as [->|(o & r & ->)]; reflexivity.
  - rewrite E1. cbn [s_threads]. eapply nth_upd_same. exact N.
  - exists k, o, r. cbn [sys_run fold_left]. fold s. fold (sys_run p (sys_step p s (Start i off)) (repeat (Step i) k)). rewrite R. exact D.
Qed.
Print Assumptions C54_read_finishes_partial.

(** Chains end in every pack whose deltas have their base in front of them, as offset
    deltas always do; and wherever there is an object. *)
Theorem C54_chain_ends : forall p, pack_ok p ->
  (forall off base, names_base p off base -> base < off) -> forall off, 0 <= off -> ends p off.
Proof.
  intros p P H off. assert (HN : exists N : nat, off <= Z.of_nat N) by (exists (Z.to_nat off); lia). destruct HN as [N HN]. revert off HN.
  induction N as [|N IH]; intros off HN Ho; constructor; intros base NB; pose proof (H _ _ NB).
  - destruct (proj2 (names_iff p off base P Ho) NB) as [e C]. pose proof (base_nonneg p off e base P Ho C). lia.
  - destruct (proj2 (names_iff p off base P Ho) NB) as [e C]. pose proof (base_nonneg p off e base P Ho C). apply IH; lia.
Qed.
Print Assumptions C54_chain_ends.
Theorem C54_object_ends : forall p off ty d, pack_ok p -> inflates_bytes p -> 0 <= off -> denotes p off ty d -> ends p off.
Proof.
  intros p off ty d P Z0 Ho D. apply mden_iff in D; try assumption. revert Ho. induction D as [off e d C R U|off e b ty bd dl d C M IH U A]; intros Ho; constructor; intros base NB;
    apply names_iff in NB as [e' C']; try assumption; rewrite C in C'; [discriminate|]. injection C' as <- <-. apply IH. apply (base_nonneg p off e b P Ho C).
Qed.
Print Assumptions C54_object_ends.
