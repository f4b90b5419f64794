(** C26: the object cache under every schedule. *)
From Verif Require Import Base CacheModel CacheProofs CacheMain.
Local Open Scope Z_scope.

Lemma init_inv n : Inv (cache_init n).
Proof.
  assert (Z0 : forall f, (forall th, In th (repeat {| t_pc := Idle; t_held := []; t_log := []; t_put := [] |} n) -> f th = 0%nat) -> sumt f (repeat {| t_pc := Idle; t_held := []; t_log := []; t_put := [] |} n) = 0%nat).
  { intros f. induction n as [|n IH]; intros H; [reflexivity|]. cbn [repeat sumt]. rewrite IH, H; [reflexivity|left; reflexivity|intros; apply H; right; assumption]. }
  assert (Zi : forall th, In th (repeat {| t_pc := Idle; t_held := []; t_log := []; t_put := [] |} n) -> th = {| t_pc := Idle; t_held := []; t_log := []; t_put := [] |}) by (intros th H; apply repeat_spec in H; exact H).
  assert (T : forall p, total (cache_init n) p = 0%nat).
  { intros p. unfold total, mapref. cbn [cache_init c_map c_thr map]. rewrite Z0 by (intros th H; rewrite (Zi th H); reflexivity). destruct (nclear _); reflexivity. }
  assert (F : forall p, nfresh (cache_init n) p = 0%nat) by (intros p; unfold nfresh; cbn [cache_init c_thr]; apply Z0; intros th H; rewrite (Zi th H); reflexivity).
  constructor; cbn [cache_init c_objs c_rc c_map c_rd c_wr c_thr].
  - reflexivity.
  - intros p. rewrite T, F. destruct p; cbn; auto.
  - intros p. rewrite T, F. split; [lia|discriminate].
  - rewrite Z0; [reflexivity|]. intros th H. rewrite (Zi th H). reflexivity.
  - rewrite Z0; [reflexivity|]. intros th H. rewrite (Zi th H). reflexivity.
  - discriminate.
  - constructor.
  - intros k q [].
  - intros t th H. apply nth_error_In in H. rewrite (Zi th H). exact Logic.I.
  - intros t th H. apply nth_error_In in H. rewrite (Zi th H). split; [intros oid fl p []|intros p r []].
Qed.

Lemma run_inv sched : forall s, Inv s -> exists s', run s sched = Ok s' /\ Inv s'.
Proof.
  induction sched as [|[t l] sched IH]; intros s I; cbn [run]; [eauto|].
  pose proof (step_ok s t l I) as G. destruct (step s t l) as [s1| | |]; cbn [good] in G; try contradiction; auto.
Qed.

(** No schedule of any number of threads touches a freed object. *)
Theorem C26_never_touches_freed n sched : exists s, run (cache_init n) sched = Ok s.
Proof. destruct (run_inv sched _ (init_inv n)) as (s & E & _). eauto. Qed.

(** Every object a get returned was stored under the id asked for, in the form asked for. *)
Theorem C26_get_returns_the_id n sched s t th oid flags p :
  run (cache_init n) sched = Ok s -> nth_error (c_thr s) t = Some th -> In (oid, flags, Some p) (t_log th) ->
  exists o, nth_error (c_objs s) p = Some o /\ o_oid o = oid /\ (flags = 0 \/ o_flags o = flags).
Proof. intros E H L. destruct (run_inv sched _ (init_inv n)) as (s' & E' & I). assert (s' = s) as -> by congruence. exact (proj1 (v_log s I t th H) oid flags p L). Qed.

(** A store returns the object given or another one with the same id, in the same form
    (or, after a failed allocation only, the raw form). *)
Theorem C26_store_returns_the_id n sched s t th p r :
  run (cache_init n) sched = Ok s -> nth_error (c_thr s) t = Some th -> In (p, r) (t_put th) ->
  exists op or, nth_error (c_objs s) p = Some op /\ nth_error (c_objs s) r = Some or /\ o_oid or = o_oid op /\
    (o_flags or = o_flags op \/ o_flags or = RAW).
Proof. intros E H L. destruct (run_inv sched _ (init_inv n)) as (s' & E' & I). assert (s' = s) as -> by congruence. exact (proj2 (v_log s I t th H) p r L). Qed.

(** An object someone holds is not freed. *)
Theorem C26_held_is_alive n sched s t th p :
  run (cache_init n) sched = Ok s -> nth_error (c_thr s) t = Some th -> In p (t_held th) ->
  exists c, nth_error (c_rc s) p = Some (Some c) /\ 1 <= c.
Proof.
  intros E H L. destruct (run_inv sched _ (init_inv n)) as (s' & E' & I). assert (s' = s) as -> by congruence.
  assert (T : (1 <= total s p)%nat) by (eapply held_total; [exact H|apply in_or_app; left; exact L]). exists (Z.of_nat (total s p)). split; [apply alive; auto|lia].
Qed.

(** When all calls have returned, the count of an object is the number of references
    the callers and the cache have, and it is freed exactly when there is none: no
    leak, no early free. *)
Definition holds (p : nat) (th : thread) : nat := count_occ Nat.eq_dec (t_held th) p.
Theorem C26_count_exact n sched s p :
  run (cache_init n) sched = Ok s -> (forall th, In th (c_thr s) -> t_pc th = Idle) -> (p < length (c_objs s))%nat ->
  let refs := (count_occ Nat.eq_dec (map snd (c_map s)) p + list_sum (map (holds p) (c_thr s)))%nat in
  nth_error (c_rc s) p = Some (if (refs =? 0)%nat then None else Some (Z.of_nat refs)).
Proof.
  intros E Hi Hp refs. destruct (run_inv sched _ (init_inv n)) as (s' & E' & I). assert (s' = s) as -> by congruence.
  assert (T : total s p = refs).
  { unfold total, mapref, refs. rewrite nclear_zero by (intros t th H; rewrite (Hi th (nth_error_In _ _ H)); reflexivity). f_equal.
    clear - Hi. induction (c_thr s) as [|x l IH]; [reflexivity|]. cbn [sumt map list_sum fold_right]. rewrite IH by (intros; apply Hi; right; assumption). f_equal. unfold CacheProofs.refs, holds, cnt. rewrite (Hi x (or_introl eq_refl)). cbn [pcrefs]. rewrite app_nil_r. reflexivity. }
  assert (F : nfresh s p = 0%nat).
  { unfold nfresh. clear - Hi. induction (c_thr s) as [|x l IH]; [reflexivity|]. cbn [sumt]. rewrite IH by (intros; apply Hi; right; assumption). rewrite (Hi x (or_introl eq_refl)). reflexivity. }
  pose proof (v_rc s I p) as V. rewrite T, F in V. destruct (nth_error (c_rc s) p) as [[c|]|] eqn:En.
  - destruct V as [-> V]. destruct (Nat.eqb_spec refs 0); [lia|reflexivity].
  - destruct V as [-> _]. reflexivity.
  - apply nth_error_None in En. rewrite (v_len s I) in En. lia.
Qed.

(** One id, one entry. *)
Theorem C26_one_entry n sched s : run (cache_init n) sched = Ok s -> NoDup (map fst (c_map s)).
Proof. intros E. destruct (run_inv sched _ (init_inv n)) as (s' & E' & I). assert (s' = s) as -> by congruence. apply I. Qed.

(** While nothing is evicted or cleared, all threads that ask for an id get the same
    object. *)
Definition disturbing (c : pc) : bool := match c with E1 _ _ | CL1 _ _ => true | _ => false end.
Fixpoint calm (s : cache) (sched : list (nat * label)) : Prop :=
  (forall th, In th (c_thr s) -> disturbing (t_pc th) = false) /\
  match sched with [] => True | (t, l) :: r => match step s t l with Ok s' => calm s' r | _ => calm s r end end.

Lemma lookup_put m k p oid : k <> oid -> lookup (put m k p) oid = lookup m oid.
Proof.
  intros N. induction m as [|[k' q] m IH]; cbn [put lookup].
  - destruct (Z.eqb_spec k oid); [contradiction|reflexivity].
  - destruct (Z.eqb_spec k' k) as [->|]; cbn [lookup]; [destruct (Z.eqb_spec k oid); [contradiction|reflexivity]|]. rewrite IH. reflexivity.
Qed.

Section Shared.
  Context (oid : Z) (p : nat).
  Definition sees (log0 : list (Z * Z * option nat)) (th : thread) : Prop :=
    match t_pc th with G3 o _ q | G4 o _ (Some q) => o = oid -> q = p | _ => True end /\
    forall fl q, In (oid, fl, Some q) (t_log th) -> In (oid, fl, Some q) log0 \/ q = p.
  Definition J (s0 s : cache) : Prop :=
    lookup (c_map s) oid = Some p /\ (exists o, nth_error (c_objs s) p = Some o /\ o_flags o = PARSED) /\
    forall t th, nth_error (c_thr s) t = Some th -> exists th0, nth_error (c_thr s0) t = Some th0 /\ sees (t_log th0) th.

  Lemma J_thr s0 s rc m rd wr t th th' : J s0 s -> nth_error (c_thr s) t = Some th -> lookup m oid = Some p ->
    (forall th0, sees (t_log th0) th -> sees (t_log th0) th') ->
    J s0 {| c_objs := c_objs s; c_rc := rc; c_map := m; c_rd := rd; c_wr := wr; c_thr := upd (c_thr s) t th' |}.
  Proof.
    intros (Jm & Jo & Jt) H Hm Hs. split; [exact Hm|]. split; [exact Jo|]. cbn [c_thr]. intros t' x Hx. rewrite (nth_thr _ _ _ _ _ H) in Hx. destruct (Nat.eqb_spec t' t) as [->|]; [|eauto].
    assert (x = th') as -> by congruence. destruct (Jt t th H) as (th0 & H0 & S0). eauto.
  Qed.
  Lemma incref_shape s q s1 : incref s q = Ok s1 -> exists rc, s1 = with_rc s rc.
  Proof. unfold incref. destruct (nth_error (c_rc s) q) as [[n|]|]; try discriminate. intros H. injection H as <-. eauto. Qed.
  Lemma decref_shape s q s1 : decref s q = Ok s1 -> exists rc, s1 = with_rc s rc.
  Proof. unfold decref. destruct (nth_error (c_rc s) q) as [[n|]|]; try discriminate. intros H. injection H as <-. eauto. Qed.
  Lemma deref_obj s q o : deref s q = Ok o -> nth_error (c_objs s) q = Some o.
  Proof. unfold deref. destruct (nth_error (c_rc s) q) as [[n|]|]; try discriminate. destruct (nth_error (c_objs s) q); try discriminate. congruence. Qed.

  Lemma J_step s0 s t l s' : J s0 s -> (forall th, In th (c_thr s) -> disturbing (t_pc th) = false) -> step s t l = Ok s' -> J s0 s'.
  Proof.
    intros HJ Q. unfold step. destruct (nth_error (c_thr s) t) as [th|] eqn:H; [|discriminate]. cbv zeta. specialize (Q th (nth_error_In _ _ H)).
    pose proof HJ as (Jm & (op & Jo & Jf) & Jt).
    destruct th as [c held log puts]. cbn [t_pc] in *.
    assert (Keep : forall th' rc rd wr, (forall th0, sees (t_log th0) {| t_pc := c; t_held := held; t_log := log; t_put := puts |} -> sees (t_log th0) th') ->
      J s0 {| c_objs := c_objs s; c_rc := rc; c_map := c_map s; c_rd := rd; c_wr := wr; c_thr := upd (c_thr s) t th' |}) by (intros; eapply J_thr; eauto).
    assert (Easy : forall c' h pu, (forall o f q, c' <> G3 o f q /\ c' <> G4 o f (Some q)) -> forall th0, sees (t_log th0) {| t_pc := c; t_held := held; t_log := log; t_put := puts |} -> sees (t_log th0) {| t_pc := c'; t_held := h; t_log := log; t_put := pu |}).
    { intros c' h pu N th0 [_ Sb]. split; [|exact Sb]. cbn [t_pc]. destruct c'; auto. - exfalso. exact (proj1 (N _ _ _) eq_refl). - destruct r; auto. exfalso. exact (proj2 (N _ _ _) eq_refl). }
    destruct c; destruct l; cbn [t_held t_log] in *; try discriminate Q; try discriminate.
    all: try (destruct (_ || _); [|discriminate]).
    all: try (intros E; injection E as <-; apply Keep; apply Easy; split; discriminate).
    all: try (destruct (existsb _ _); [|discriminate]).
    all: try match goal with |- context [incref ?y ?x] => destruct (incref y x) as [s1| | |] eqn:Ei; try discriminate; apply incref_shape in Ei as (rc & ->); cbn [bindr] end.
    all: try match goal with |- context [decref ?y ?x] => destruct (decref y x) as [s1| | |] eqn:Ei; try discriminate; apply decref_shape in Ei as (rc & ->); cbn [bindr] end.
    all: try (intros E; injection E as <-; apply Keep; apply Easy; split; discriminate).
    - (* BStore *) intros E. injection E as <-. split; [exact Jm|]. split; [exists op; cbn [c_objs]; rewrite nth_error_app1; [auto|apply nth_error_Some; congruence]|].
      cbn [c_thr]. intros t' x Hx. rewrite (nth_thr _ _ _ _ _ H) in Hx. destruct (Nat.eqb_spec t' t) as [->|]; [|eauto]. destruct (Jt t _ H) as (th0 & H0 & S0). exists th0. split; [exact H0|]. assert (x = go {| t_pc := Idle; t_held := held; t_log := log; t_put := puts |} (S1 (length (c_objs s)))) as -> by congruence. apply Easy; [split; discriminate|exact S0].
    - (* G1 *) destruct b; [destruct (c_wr s); [discriminate|]; intros E; injection E as <-; apply Keep; apply Easy; split; discriminate|].
      intros E. injection E as <-. apply Keep. intros th0 [_ Sb]. split; [exact Logic.I|]. intros fl q [C|C]; [discriminate|apply Sb; exact C].
    - (* G2 *) destruct (lookup (c_map s) oid0) as [q|] eqn:El.
      + destruct (deref s q) as [o| | |]; try discriminate. cbn [bindr]. destruct (_ && _); intros E; injection E as <-; apply Keep; [apply Easy; split; discriminate|].
        intros th0 [_ Sb]. split; [|exact Sb]. cbn [t_pc go]. intros ->. congruence.
      + intros E. injection E as <-. apply Keep. apply Easy. split; discriminate.
    - (* G3 *) intros E. injection E as <-. apply Keep. intros th0 [Sa Sb]. split; [exact Sa|exact Sb].
    - (* G4 *) intros E. injection E as <-. apply Keep. intros th0 [Sa Sb]. split; [exact Logic.I|]. cbn [t_log t_pc] in *. intros fl q [C|C]; [|apply Sb; exact C].
      injection C as -> -> ->. right. apply Sa. reflexivity.
    - (* S2 *) destruct b; [|destruct n]; intros E; injection E as <-; apply Keep; apply Easy; split; discriminate.
    - (* S4 *) destruct b; [destruct (_ || _); [discriminate|]|]; intros E; injection E as <-; apply Keep; apply Easy; split; discriminate.
    - (* S5 *) destruct b; [destruct (_ <? _)%nat|]; intros E; injection E as <-; apply Keep; apply Easy; split; try discriminate; unfold clear_start; destruct (c_map s); discriminate.
    - (* S6 *) destruct (deref s p0) as [o| | |] eqn:Ed; try discriminate. cbn [bindr].
      destruct (lookup (c_map s) (o_oid o)) as [q|] eqn:El.
      + destruct (deref s q) as [oq| | |] eqn:Eq; try discriminate. cbn [bindr]. destruct (_ =? _); [intros E; injection E as <-; apply Keep; apply Easy; split; discriminate|].
        destruct ((o_flags oq =? RAW) && (o_flags o =? PARSED)) eqn:Ef; [|intros E; injection E as <-; apply Keep; apply Easy; split; discriminate].
        destruct b; [|intros E; injection E as <-; apply Keep; apply Easy; split; discriminate].
        intros E. injection E as <-. apply (J_thr s0 s _ _ _ _ t _ _ HJ H); [|apply Easy; split; discriminate]. cbn [with_map c_map]. rewrite lookup_put; [exact Jm|]. intros C.
        rewrite C in El. assert (q = p) as -> by congruence. apply deref_obj in Eq. assert (oq = op) as -> by congruence. apply andb_prop in Ef as [Ef _]. apply Z.eqb_eq in Ef. rewrite Jf in Ef. discriminate.
      + destruct b; intros E; injection E as <-; [|apply Keep; apply Easy; split; discriminate].
        apply (J_thr s0 s _ _ _ _ t _ _ HJ H); [|apply Easy; split; discriminate]. cbn [with_map c_map]. rewrite lookup_put; [exact Jm|]. intros C. congruence.
    - (* CL0 *) destruct b; [destruct (_ || _); [discriminate|]; intros E; injection E as <-; apply Keep; apply Easy; unfold clear_start; destruct (c_map s); split; discriminate|].
      destruct k; intros E; injection E as <-; apply Keep; apply Easy; split; discriminate.
    - (* CL2 *) destruct k; intros E; injection E as <-; apply Keep; apply Easy; split; discriminate.
  Qed.

  Lemma J_run s0 sched : forall s s', J s0 s -> calm s sched -> run s sched = Ok s' -> J s0 s'.
  Proof.
    induction sched as [|[t l] sched IH]; intros s s' HJ C E; cbn [run calm] in *; [congruence|]. destruct C as [Q C].
    destruct (step s t l) as [s1| | |] eqn:Es; try discriminate; [|eauto]. eapply IH; [eapply J_step; eauto|exact C|exact E].
  Qed.
End Shared.

Theorem C26_same_object n sched0 s0 sched s oid p o :
  run (cache_init n) sched0 = Ok s0 -> (forall th, In th (c_thr s0) -> t_pc th = Idle) ->
  lookup (c_map s0) oid = Some p -> nth_error (c_objs s0) p = Some o -> o_flags o = PARSED ->
  calm s0 sched -> run s0 sched = Ok s ->
  forall t th0 th flags q, nth_error (c_thr s0) t = Some th0 -> nth_error (c_thr s) t = Some th ->
    In (oid, flags, Some q) (t_log th) -> In (oid, flags, Some q) (t_log th0) \/ q = p.
Proof.
  intros E0 Hi Hl Ho Hf C E t th0 th flags q H0 H Hin.
  assert (J0 : J oid p s0 s0).
  { split; [exact Hl|]. split; [eauto|]. intros t' x Hx. exists x. split; [exact Hx|]. split; [rewrite (Hi x (nth_error_In _ _ Hx)); exact Logic.I|auto]. }
  destruct (J_run oid p s0 sched s0 s J0 C E) as (_ & _ & Jt). destruct (Jt t th H) as (th0' & H0' & _ & Sb). assert (th0' = th0) as -> by congruence. apply Sb. exact Hin.
Qed.

(** ** Examples *)
Definition ob (oid flags : Z) : cobj := {| o_oid := oid; o_flags := flags; o_content := [oid] |}.
Definition go1 (t : nat) (n : nat) : list (nat * label) := repeat (t, Run true 0) n.
(** A store without an eviction. *)
Definition st (t : nat) (o : cobj) : list (nat * label) := (t, BStore o) :: go1 t 3 ++ (t, Run false 0) :: go1 t 4.
(** Two threads: both store the same id, both get it, one releases: one object is
    shared, the other freed. *)
Example C26_nonvacuous :
  match run (cache_init 2) (st 0 (ob 7 2) ++ st 1 (ob 7 2) ++ (0%nat, BGet 7 0) :: (1%nat, BGet 7 2) :: go1 0 2 ++ go1 1 4 ++ go1 0 2) with
  | Ok s => c_rc s = [Some 5; None] /\ c_map s = [(7, 0%nat)] /\ map t_held (c_thr s) = [[0; 0]; [0; 0]]%nat /\ map t_log (c_thr s) = [[(7, 0, Some 0%nat)]; [(7, 2, Some 0%nat)]]
  | _ => False
  end.
Proof. vm_compute. auto. Qed.
(** A raw entry is replaced by a parsed one; a clear frees what nobody holds. *)
Example C26_nonvacuous_clear :
  match run (cache_init 2) (st 0 (ob 7 1) ++ (0%nat, BFree 0) :: st 1 (ob 7 2) ++ (1%nat, BFree 1) :: (0%nat, BClear) :: go1 0 4) with
  | Ok s => c_rc s = [None; None] /\ c_map s = [] /\ c_wr s = false
  | _ => False
  end.
Proof. vm_compute. auto. Qed.

(** When growing the table fails, storing a parsed object returns the raw one: the
    caller, who treats it as parsed, has an object of the wrong kind. *)
Theorem C26_store_form_refuted : ~ (forall n sched s t th p r, run (cache_init n) sched = Ok s -> nth_error (c_thr s) t = Some th -> In (p, r) (t_put th) ->
  exists op or, nth_error (c_objs s) p = Some op /\ nth_error (c_objs s) r = Some or /\ o_flags or = o_flags op).
Proof.
  intros H. set (sched := st 0 (ob 7 1) ++ (1%nat, BStore (ob 7 2)) :: go1 1 3 ++ (1%nat, Run false 0) :: (1%nat, Run false 0) :: go1 1 3).
  destruct (run (cache_init 2) sched) as [s| | |] eqn:E; [|vm_compute in E; discriminate..].
  assert (Eq : match run (cache_init 2) sched with Ok s => nth_error (c_thr s) 1 = Some {| t_pc := Idle; t_held := [0%nat]; t_log := []; t_put := [(1, 0)%nat] |} /\ c_objs s = [ob 7 1; ob 7 2] | _ => False end) by (vm_compute; auto).
  rewrite E in Eq. destruct Eq as [Et Eo].
  destruct (H 2%nat sched s 1%nat _ 1%nat 0%nat E Et (or_introl eq_refl)) as (op & or & H1 & H2 & H3). rewrite Eo in H1, H2. cbn in H1, H2. injection H1 as <-. injection H2 as <-. discriminate.
Qed.
