From Verif Require Import Base Str WildModel WildSpec.

Section W.
  Context (pn cf : bool).
  Notation L := (lang pn cf).
  Notation fd := (fold cf).

  Definition is_star (e : elem) : bool := match e with EStar _ | EDirs => true | _ => false end.
  Definition lit_of (es : list elem) : option Z := match es with ELit c :: _ => Some (fd c) | _ => None end.
  Definition ms_of (e : elem) : bool := match e with EStar s => s | _ => true end.

  (** The matcher on parsed patterns. *)
  Fixpoint W (es : list elem) (t : list Z) : wres :=
    match es with
    | [] => match t with [] => MATCH | _ => NOMATCH end
    | e :: es' =>
        match e with
        | EStar _ | EDirs =>
            let early := match e, es' with EDirs, ELit _ :: es'' => W es'' t | _, _ => NOMATCH end in
            match early with
            | MATCH => MATCH
            | WFUEL => WFUEL
            | _ =>
              match es' with
              | [] => if negb (ms_of e) && (match strchr 47 t with Some _ => true | None => false end) then NOMATCH else MATCH
              | e1 :: es'' =>
                  match negb (ms_of e), e1 with
                  | true, ELit 47 => match strchr 47 t with None => NOMATCH | Some t' => W es'' (tl t') end
                  | _, _ => starloop (S (length t)) cf (ms_of e) (lit_of es') (W es') t
                  end
              end
            end
        | _ =>
            match t with
            | [] => ABORT_ALL
            | x :: t' =>
                match e with
                | ELit c => if fd x =? fd c then W es' t' else NOMATCH
                | EEsc c => if fd x =? c then W es' t' else NOMATCH
                | EAny => if pn && (x =? 47) then NOMATCH else W es' t'
                | EClass neg its => if Bool.eqb (existsb (item_has cf (fd x)) its) neg || (pn && (x =? 47)) then NOMATCH else W es' t'
                | _ => ABORT_ALL
                end
            end
        end
    end.

  (** Well-formed element lists: what the parser produces. *)
  Definition slash_elem (e : elem) : bool := match e with ELit c => c =? 47 | EEsc c => c =? 47 | _ => false end.
  Fixpoint wf (es : list elem) : Prop :=
    match es with
    | [] => True
    | e :: es' =>
        (match e with ELit c => 0 < c | EStar s => pn = false -> s = true | EDirs => pn = true /\ match es' with ELit c :: _ => c = 47 | _ => False end | _ => True end) /\
        (is_star e = true -> match es' with e1 :: _ => is_star e1 = false | [] => True end) /\
        (match es' with EDirs :: _ => slash_elem e = true | _ => True end) /\
        wf es'
    end.

  Lemma fd47 x : fd x = 47 <-> x = 47.
  Proof.
    unfold fold, tolower. destruct cf; cbn [andb]; [|tauto]. destruct (isupper x) eqn:E; [|tauto]. unfold isupper in E. lia.
  Qed.
  Lemma fd47' : fd 47 = 47.
  Proof. apply fd47. reflexivity. Qed.

  Definition starts_dirs (es : list elem) : Prop := exists r, es = EDirs :: r.
  Definition noslash (u : list Z) : Prop := ~ In 47 u.
  (** What each answer promises. *)
  Definition good (es : list elem) (t : list Z) (r : wres) : Prop :=
    match r with
    | MATCH => L es t
    | NOMATCH => ~ L es t
    | ABORT_ALL => forall u v, t = u ++ v -> (starts_dirs es -> u = [] \/ exists u', u = u' ++ [47]) -> ~ L es v
    | ABORT_SS => pn = true /\ ~ starts_dirs es /\ forall u v, t = u ++ v -> noslash u -> ~ L es v
    | WFUEL => False
    end.

  Lemma good_no es t r : good es t r -> r <> MATCH -> ~ L es t.
  Proof.
    destruct r; cbn; intros H N; [congruence|exact H| | |contradiction].
    - apply (H [] t); auto.
    - destruct H as (_ & _ & H). apply (H [] t); auto. intros [].
  Qed.

  Lemma strchr_spec t : match strchr 47 t with
    | Some t' => exists a t3, t = a ++ 47 :: t3 /\ t' = 47 :: t3 /\ noslash a
    | None => noslash t end.
  Proof.
    unfold noslash. induction t as [|x t IH]; cbn; [auto|]. destruct (Z.eqb_spec x 47) as [->|N].
    - exists [], t. cbn. auto.
    - destruct (strchr 47 t) as [t'|].
      + destruct IH as (a & t3 & -> & -> & Ha). exists (x :: a), t3. repeat split; auto. intros [E|E]; [congruence|auto].
      + intros [E|E]; [congruence|auto].
  Qed.

  Lemma noslash_cons x u : noslash (x :: u) <-> x <> 47 /\ noslash u.
  Proof. unfold noslash. cbn. intuition congruence. Qed.
  Lemma noslash_app a b : noslash (a ++ b) <-> noslash a /\ noslash b.
  Proof. unfold noslash. rewrite in_app_iff. tauto. Qed.

  (** Splitting the same text at its first slash. *)
  Lemma first_slash_eq a b r s : a ++ 47 :: r = b ++ 47 :: s -> noslash a -> noslash b -> a = b /\ r = s.
  Proof.
    revert b. induction a as [|x a IH]; intros [|y b] H Ha Hb; cbn in H.
    - injection H as ->. auto.
    - injection H as <- H. apply noslash_cons in Hb. destruct Hb. congruence.
    - injection H as -> H. apply noslash_cons in Ha. destruct Ha. congruence.
    - injection H as -> H. apply noslash_cons in Ha, Hb. destruct (IH b H) as [-> ->]; tauto.
  Qed.
  Lemma first_slash_le a b r s : a ++ 47 :: r = b ++ 47 :: s -> noslash a -> exists c, r = c ++ s /\ (c = [] \/ exists c', c = c' ++ [47]).
  Proof.
    revert b. induction a as [|x a IH]; intros [|y b] H Ha; cbn in H.
    - injection H as ->. exists []. auto.
    - injection H as <- H. exists (b ++ [47]). split; [rewrite <- app_assoc; exact H|]. right. eauto.
    - injection H as -> H. apply noslash_cons in Ha. destruct Ha. congruence.
    - injection H as -> H. apply noslash_cons in Ha. destruct Ha as [_ Ha]. exact (IH b H Ha).
  Qed.

  (** The one-byte elements. *)
  Lemma good_one (Q : Z -> Prop) es es' t' x r e :
    (forall t, L es t <-> exists x t', t = x :: t' /\ Q x /\ L es' t') -> ~ starts_dirs es ->
    (starts_dirs es' -> slash_elem e = true /\ forall y, Q y -> y = 47) ->
    (pn = true -> Q 47 -> forall y, Q y -> y = 47) ->
    Q x -> good es' t' r -> good es (x :: t') r.
  Proof.
    intros HL Hnd Hd Hs Hx Hg. destruct r; cbn in *.
    - apply HL. eauto.
    - intros H. apply HL in H. destruct H as (y & t2 & [= <- <-] & _ & H). contradiction.
    - intros u v Hu _ H. apply HL in H. destruct H as (y & v' & -> & Hy & Hv). destruct u as [|z u]; cbn in Hu.
      + injection Hu as -> ->. exact (Hg [] v' eq_refl (fun _ => or_introl eq_refl) Hv).
      + injection Hu as -> ->. apply (Hg (u ++ [y]) v'); [rewrite <- app_assoc; reflexivity| |exact Hv].
        intros Hsd. right. destruct (Hd Hsd) as [_ Hq]. exists u. rewrite (Hq y Hy). reflexivity.
    - destruct Hg as (Hp & Hn & Hg). split; [exact Hp|]. split; [exact Hnd|]. intros u v Hu Hns H.
      apply HL in H. destruct H as (y & v' & -> & Hy & Hv). destruct u as [|z u]; cbn in Hu.
      + injection Hu as -> ->. exact (Hg [] v' eq_refl ltac:(intros []) Hv).
      + injection Hu as -> ->. apply noslash_cons in Hns. destruct Hns as [Hz Hns].
        apply (Hg (u ++ [y]) v'); [rewrite <- app_assoc; reflexivity| |exact Hv].
        apply noslash_app. split; [exact Hns|]. apply noslash_cons. split; [|intros []].
        intros ->. apply Hz. apply (Hs Hp Hy). exact Hx.
    - exact Hg.
  Qed.

  Lemma L_nil_nonempty e es : is_star e = false -> ~ L (e :: es) [].
  Proof. destruct e; cbn; intros E H; try discriminate; try contradiction; destruct H as (x & t' & H & _); discriminate. Qed.

  Definition Lstar (ms : bool) (es : list elem) (t : list Z) : Prop := exists u v, t = u ++ v /\ (ms = true \/ noslash u) /\ L es v.

  Lemma hd_eqb0 x (t : list Z) : 0 < x -> (hd 0 (x :: t) =? 0) = false.
  Proof. cbn. intros. apply Z.eqb_neq. lia. Qed.

  (** The star loop. *)
  Lemma starloop_good ms e1 es (rec : list Z -> wres) : is_star e1 = false -> (pn = false -> ms = true) ->
    (ms = false -> e1 <> ELit 47) -> (forall c, e1 = ELit c -> 0 < c) ->
    (forall t, cstr t -> good (e1 :: es) t (rec t)) ->
    forall t n, cstr t -> (length t < n)%nat ->
    match starloop n cf ms (lit_of (e1 :: es)) rec t with
    | MATCH => Lstar ms (e1 :: es) t
    | NOMATCH => ~ Lstar ms (e1 :: es) t
    | ABORT_ALL => forall u v, t = u ++ v -> ~ L (e1 :: es) v
    | ABORT_SS => ms = false /\ pn = true /\ forall u v, t = u ++ v -> noslash u -> ~ L (e1 :: es) v
    | WFUEL => False
    end.
  Proof.
    intros Hst Hms H47 Hpos Hrec. set (E := e1 :: es).
    assert (Hnd : ~ starts_dirs E) by (intros [r Hr]; unfold E in Hr; injection Hr as -> _; discriminate).
    assert (HnilL : ~ L E []) by (apply L_nil_nonempty, Hst).
    (* one round from the position where the recursive call is made *)
    assert (Hround : forall n x t, 0 < x ->
       (match starloop n cf ms (lit_of E) rec t with
        | MATCH => Lstar ms E t | NOMATCH => ~ Lstar ms E t
        | ABORT_ALL => forall u v, t = u ++ v -> ~ L E v
        | ABORT_SS => ms = false /\ pn = true /\ forall u v, t = u ++ v -> noslash u -> ~ L E v
        | WFUEL => False end) -> good E (x :: t) (rec (x :: t)) ->
       match (match rec (x :: t) with
          | NOMATCH => if negb ms && (x =? 47) then ABORT_SS else starloop n cf ms (lit_of E) rec t
          | ABORT_SS => if ms then starloop n cf ms (lit_of E) rec t else ABORT_SS
          | r => r end) with
        | MATCH => Lstar ms E (x :: t) | NOMATCH => ~ Lstar ms E (x :: t)
        | ABORT_ALL => forall u v, x :: t = u ++ v -> ~ L E v
        | ABORT_SS => ms = false /\ pn = true /\ forall u v, x :: t = u ++ v -> noslash u -> ~ L E v
        | WFUEL => False end).
    { intros n x t Hx IH Hg.
      assert (Hcont : (ms = true \/ x <> 47) -> ~ L E (x :: t) ->
         match starloop n cf ms (lit_of E) rec t with
        | MATCH => Lstar ms E (x :: t) | NOMATCH => ~ Lstar ms E (x :: t)
        | ABORT_ALL => forall u v, x :: t = u ++ v -> ~ L E v
        | ABORT_SS => ms = false /\ pn = true /\ forall u v, x :: t = u ++ v -> noslash u -> ~ L E v
        | WFUEL => False end).
      { intros Hsl Hno. destruct (starloop n cf ms (lit_of E) rec t).
        - destruct IH as (u & v & -> & Hu & Hv). exists (x :: u), v. split; [reflexivity|]. split; [|exact Hv].
          destruct Hsl as [->|N]; [auto|]. destruct Hu as [->|Hu]; [auto|]. right. apply noslash_cons. auto.
        - intros (u & v & Hu & Hns & Hv). destruct u as [|y u]; cbn in Hu; [subst v; contradiction|]. injection Hu as -> ->. apply IH.
          exists u, v. split; [reflexivity|]. split; [|exact Hv]. destruct Hns as [->|Hns]; [auto|]. apply noslash_cons in Hns. tauto.
        - intros u v Hu Hv. destruct u as [|y u]; cbn in Hu; [subst v; contradiction|]. injection Hu as -> ->. exact (IH u v eq_refl Hv).
        - destruct IH as (Hm & Hp & IH). split; [exact Hm|]. split; [exact Hp|]. intros u v Hu Hns Hv.
          destruct u as [|y u]; cbn in Hu; [subst v; contradiction|]. injection Hu as -> ->. apply noslash_cons in Hns. exact (IH u v eq_refl (proj2 Hns) Hv).
        - contradiction. }
      destruct (rec (x :: t)) eqn:Er; cbn [good] in Hg.
      - exists [], (x :: t). split; [reflexivity|]. split; [right; intros []|exact Hg].
      - destruct (negb ms && (x =? 47)) eqn:Es.
        + apply andb_prop in Es. destruct Es as [E1 E2]. apply negb_true_iff in E1. apply Z.eqb_eq in E2. subst x.
          split; [exact E1|]. split; [destruct pn eqn:Epn; [reflexivity|]; specialize (Hms eq_refl); congruence|].
          intros u v Hu Hns Hv. destruct u as [|y u]; cbn in Hu; [subst v; contradiction|]. injection Hu as <- ->. apply noslash_cons in Hns. destruct Hns. congruence.
        + apply Hcont; [|exact Hg]. destruct ms; [auto|]. right. cbn in Es. apply Z.eqb_neq. exact Es.
      - intros u v Hu. apply (Hg u v Hu). intros Hs. contradiction.
      - destruct Hg as (Hp & _ & Hg). destruct ms eqn:Em.
        + apply Hcont; [auto|]. apply (Hg [] (x :: t)); [reflexivity|intros []].
        + auto.
      - contradiction. }
    induction t as [|x t IH]; intros n Hc Hn.
    - destruct n as [|n]; [lia|]. cbn. intros u v Hu. destruct u; [|discriminate]. cbn in Hu. subst v. exact HnilL.
    - assert (Hx : 0 < x) by (inversion Hc; subst; lia). assert (Hct : cstr t) by (inversion Hc; assumption).
      destruct n as [|n]; [lia|]. cbn [starloop]. rewrite hd_eqb0 by exact Hx.
      assert (Hr1 := Hround n x t Hx (IH n Hct ltac:(cbn in Hn; lia)) (Hrec (x :: t) Hc)).
      destruct (lit_of E) as [pc|] eqn:El.
      + unfold E in El. destruct e1 as [c| | | | | |]; try discriminate. cbn in El. injection El as <-.
        cbn [skip_lit].
        assert (Hpc : ms = false -> fd c <> 47) by (intros Hm Hc47; apply (H47 Hm); apply (proj1 (fd47 _)) in Hc47; congruence).
        destruct (negb ms && (x =? 47)) eqn:Es.
        * cbn [hd]. apply andb_prop in Es. destruct Es as [E1 E2]. apply negb_true_iff in E1. apply Z.eqb_eq in E2. subst x.
          rewrite fd47'. destruct (Z.eqb_spec 47 (fd c)) as [E3|_]; [exfalso; apply (Hpc E1); congruence|]. cbn [negb].
          intros (u & v & Hu & Hns & Hv). destruct Hns as [Hns|Hns]; [congruence|]. destruct u as [|y u]; cbn in Hu.
          -- subst v. cbn in Hv. destruct Hv as (y & t2 & [= <- <-] & Hf & _). rewrite fd47' in Hf. apply (Hpc E1). congruence.
          -- injection Hu as <- _. apply noslash_cons in Hns. tauto.
        * destruct (Z.eqb_spec (fd x) (fd c)) as [Ef|Nf].
          -- cbn [hd tl]. rewrite Ef, Z.eqb_refl. cbn [negb]. rewrite Es. exact Hr1.
          -- (* skipping: this start cannot match *)
             assert (Hno : ~ L E (x :: t)).
             { unfold E. cbn. intros (y & t2 & [= <- <-] & Hf & _). contradiction. }
             assert (Hsl : ms = true \/ x <> 47) by (destruct ms; [auto|right; cbn in Es; apply Z.eqb_neq; exact Es]).
             specialize (IH (S n) Hct ltac:(cbn in Hn; lia)). cbn [starloop] in IH.
             set (text' := skip_lit cf ms (fd c) t) in *.
             assert (Hlift : forall r, (match r with
                  | MATCH => Lstar ms E t | NOMATCH => ~ Lstar ms E t | ABORT_ALL => forall u v, t = u ++ v -> ~ L E v
                  | ABORT_SS => ms = false /\ pn = true /\ forall u v, t = u ++ v -> noslash u -> ~ L E v | WFUEL => False end) ->
                match r with
                  | MATCH => Lstar ms E (x :: t) | NOMATCH => ~ Lstar ms E (x :: t) | ABORT_ALL => forall u v, x :: t = u ++ v -> ~ L E v
                  | ABORT_SS => ms = false /\ pn = true /\ forall u v, x :: t = u ++ v -> noslash u -> ~ L E v | WFUEL => False end).
             { intros r Hr. destruct r.
               - destruct Hr as (u & v & -> & Hu & Hv). exists (x :: u), v. split; [reflexivity|]. split; [|exact Hv].
                 destruct Hsl as [->|N]; [auto|]. destruct Hu as [->|Hu]; [auto|]. right. apply noslash_cons. auto.
               - intros (u & v & Hu & Hns & Hv). destruct u as [|y u]; cbn in Hu; [subst v; contradiction|]. injection Hu as -> ->. apply Hr.
                 exists u, v. split; [reflexivity|]. split; [|exact Hv]. destruct Hns as [->|Hns]; [auto|]. apply noslash_cons in Hns. tauto.
               - intros u v Hu Hv. destruct u as [|y u]; cbn in Hu; [subst v; contradiction|]. injection Hu as -> ->. exact (Hr u v eq_refl Hv).
               - destruct Hr as (Hm & Hp & Hr). split; [exact Hm|]. split; [exact Hp|]. intros u v Hu Hns Hv.
                 destruct u as [|y u]; cbn in Hu; [subst v; contradiction|]. injection Hu as -> ->. apply noslash_cons in Hns. exact (Hr u v eq_refl (proj2 Hns) Hv).
               - contradiction. }
             destruct t as [|y t].
             { cbn in text'. unfold text'. cbn [hd].
               destruct (Z.eqb_spec (fd 0) (fd c)) as [E0|N0]; cbn [negb].
               - exfalso. specialize (Hpos c eq_refl). revert E0. unfold fold, tolower. destruct cf; cbn; [|lia]. destruct (isupper c); lia.
               - intros (u & v & Hu & Hns & Hv). destruct u as [|y u]; cbn in Hu; [subst v; contradiction|]. injection Hu as _ Hu.
                 symmetry in Hu. apply app_eq_nil in Hu. destruct Hu as [-> ->]. contradiction. }
             assert (Hy : 0 < y) by (inversion Hct; subst; lia).
             rewrite hd_eqb0 in IH by exact Hy.
             apply (Hlift _ IH).
      + cbn [negb hd tl]. exact Hr1.
  Qed.

  Lemma L_star s es t : L (EStar s :: es) t <-> Lstar s es t.
  Proof. reflexivity. Qed.

  Theorem W_good : forall es, wf es -> forall t, cstr t -> good es t (W es t).
  Proof.
    fix IHf 1. intros es Hwf t Hc. destruct es as [|e es].
    { cbn. destruct t; cbn; [reflexivity|discriminate]. }
    destruct Hwf as (Hw1 & Hw2 & Hw3 & Hw).
    assert (IH : forall t, cstr t -> good es t (W es t)) by (intros t0 Hc0; apply IHf; assumption).
    assert (Hndirs : is_star e = false -> ~ starts_dirs (e :: es)) by (intros Hs [r [= -> _]]; discriminate).
    assert (Hslash : starts_dirs es -> slash_elem e = true) by (intros [r ->]; exact Hw3).
    assert (Habort : is_star e = false -> good (e :: es) [] ABORT_ALL).
    { intros Hs u v Hu _. symmetry in Hu. apply app_eq_nil in Hu. destruct Hu as [-> ->]. apply L_nil_nonempty, Hs. }
    destruct e as [c|c| |neg its|s| |]; cbn [W].
    - destruct t as [|x t]; [apply Habort; reflexivity|]. inversion Hc as [|? ? Hx Ht]; subst.
      destruct (Z.eqb_spec (fd x) (fd c)) as [E|N].
      + apply (good_one (fun y => fd y = fd c) _ es t x _ (ELit c)); auto.
        * intros t0. cbn. tauto.
        * intros Hs. specialize (Hslash Hs). split; [exact Hslash|]. cbn in Hslash. apply Z.eqb_eq in Hslash. subst c. intros y Hy. rewrite fd47' in Hy. apply (proj1 (fd47 _)), Hy.
        * intros _ H1 y Hy. rewrite <- H1, fd47' in Hy. apply (proj1 (fd47 _)), Hy.
      + cbn. intros (y & t2 & [= <- <-] & Hf & _). contradiction.
    - destruct t as [|x t]; [apply Habort; reflexivity|]. inversion Hc as [|? ? Hx Ht]; subst.
      destruct (Z.eqb_spec (fd x) c) as [E|N].
      + apply (good_one (fun y => fd y = c) _ es t x _ (EEsc c)); auto.
        * intros t0. cbn. tauto.
        * intros Hs. specialize (Hslash Hs). split; [exact Hslash|]. cbn in Hslash. apply Z.eqb_eq in Hslash. subst c. intros y Hy. apply (proj1 (fd47 _)), Hy.
        * intros _ H1 y Hy. rewrite <- H1, fd47' in Hy. apply (proj1 (fd47 _)), Hy.
      + cbn. intros (y & t2 & [= <- <-] & Hf & _). contradiction.
    - destruct t as [|x t]; [apply Habort; reflexivity|]. inversion Hc as [|? ? Hx Ht]; subst.
      destruct (pn && (x =? 47)) eqn:E.
      + cbn. intros (y & t2 & [= <- <-] & Hf & _). apply andb_prop in E. destruct E as [E1 E2]. apply Z.eqb_eq in E2. apply Hf. split; [exact E1|exact E2].
      + apply (good_one (fun y => ~ (pn = true /\ y = 47)) _ es t x _ EAny); auto.
        * intros t0. cbn. tauto.
        * intros Hs. specialize (Hslash Hs). discriminate.
        * intros Hp H1. exfalso. apply H1. auto.
        * intros [Hp ->]. rewrite Hp in E. discriminate.
    - destruct t as [|x t]; [apply Habort; reflexivity|]. inversion Hc as [|? ? Hx Ht]; subst.
      destruct (Bool.eqb _ neg || (pn && (x =? 47))) eqn:E.
      + cbn. intros (y & t2 & [= <- <-] & Hm & Hf & _). rewrite Hm in E. apply orb_prop in E. destruct E as [E|E]; [destruct neg; discriminate|].
        apply andb_prop in E. destruct E as [E1 E2]. apply Z.eqb_eq in E2. apply Hf. split; [exact E1|exact E2].
      + apply orb_false_iff in E. destruct E as [E1 E2].
        apply (good_one (fun y => existsb (item_has cf (fd y)) its = negb neg /\ ~ (pn = true /\ y = 47)) _ es t x _ (EClass neg its)); auto.
        * intros t0. cbn. split; intros (y & t2 & H); exists y, t2; tauto.
        * intros Hs. specialize (Hslash Hs). discriminate.
        * intros Hp [_ H1]. exfalso. apply H1. auto.
        * split; [destruct (existsb _ its), neg; cbn in E1 |- *; congruence|]. intros [Hp ->]. rewrite Hp in E2. discriminate.
    - (* EStar s *)
      cbn [ms_of]. destruct es as [|e1 es].
      { pose proof (strchr_spec t) as Hs. destruct s; cbn [negb andb].
        - exists t, []. cbn. rewrite app_nil_r. auto.
        - destruct (strchr 47 t) as [t'|].
          + destruct Hs as (a & t3 & -> & -> & Ha). cbn. intros (u & v & Hu & [E|Hns] & ->); [discriminate|]. rewrite app_nil_r in Hu. subst u. apply Hns. apply in_or_app. right. left. reflexivity.
          + exists t, []. cbn. rewrite app_nil_r. auto. }
      specialize (Hw2 eq_refl). cbn in Hw2.
      assert (Hnd : ~ starts_dirs (EStar s :: e1 :: es)) by (intros [r Hr]; discriminate).
      assert (Hgen : (s = false -> e1 <> ELit 47) -> good (EStar s :: e1 :: es) t (starloop (S (length t)) cf s (lit_of (e1 :: es)) (W (e1 :: es)) t)).
      { intros H47. pose proof (starloop_good s e1 es (W (e1 :: es)) Hw2 Hw1 H47) as HS.
        assert (Hp : forall c, e1 = ELit c -> 0 < c) by (intros c ->; exact (proj1 Hw)).
        specialize (HS Hp IH t (S (length t)) Hc ltac:(lia)).
        destruct (starloop (S (length t)) cf s (lit_of (e1 :: es)) (W (e1 :: es)) t); cbn [good].
        - exact HS.
        - exact HS.
        - intros u v Hu _ H. destruct H as (a & b & -> & _ & Hb). apply (HS (u ++ a) b); [rewrite <- app_assoc; exact Hu|exact Hb].
        - destruct HS as (Hs & Hp2 & HS). split; [exact Hp2|]. split; [exact Hnd|]. intros u v Hu Hns H.
          destruct H as (a & b & -> & Hna & Hb). apply (HS (u ++ a) b); [rewrite <- app_assoc; exact Hu| |exact Hb].
          apply noslash_app. split; [exact Hns|]. destruct Hna as [E|Hna]; [congruence|exact Hna].
        - exact HS. }
      destruct s; cbn [negb]; [apply Hgen; discriminate|].
      destruct (Z.eq_dec (match e1 with ELit c => c | _ => 0 end) 47) as [E47|N47].
      + destruct e1 as [c| | | | | |]; try discriminate. subst c.
        pose proof (strchr_spec t) as Hs. destruct (strchr 47 t) as [t'|].
        * destruct Hs as (a & t3 & -> & -> & Ha). cbn [tl].
          assert (Hc3 : cstr t3) by (apply Forall_app in Hc; destruct Hc as [_ Hc]; inversion Hc; assumption).
          assert (Hw' : wf es) by apply Hw. assert (IH3 : good es t3 (W es t3)) by (apply IHf; assumption).
          assert (HL : forall v, L (EStar false :: ELit 47 :: es) v <-> exists b r, v = b ++ 47 :: r /\ noslash b /\ L es r).
          { intros v. cbn. split.
            - intros (b & w & -> & [E|Hb] & x & r & -> & Hx & Hr); [discriminate|]. rewrite fd47' in Hx. apply (proj1 (fd47 _)) in Hx. subst x. exists b, r. auto.
            - intros (b & r & -> & Hb & Hr). exists b, (47 :: r). split; [reflexivity|]. split; [auto|]. exists 47, r. auto. }
          destruct (W es t3); cbn [good] in *.
          -- apply HL. exists a, t3. auto.
          -- rewrite HL. intros (b & r & Hv & Hb & Hr). destruct (first_slash_eq a b t3 r Hv Ha Hb) as [-> ->]. contradiction.
          -- intros u v Hu _. rewrite HL. intros (b & r & -> & Hb & Hr). rewrite app_assoc in Hu.
             destruct (first_slash_le a (u ++ b) t3 r Hu Ha) as (d & Hd & Hd2). apply (IH3 d r Hd); [|exact Hr]. intros _. exact Hd2.
          -- destruct IH3 as (Hp & Hnd3 & IH3). split; [exact Hp|]. split; [exact Hnd|]. intros u v Hu Hns. rewrite HL. intros (b & r & -> & Hb & Hr).
             rewrite app_assoc in Hu. destruct (first_slash_eq a (u ++ b) t3 r Hu Ha) as [_ <-]; [apply noslash_app; auto|].
             apply (IH3 [] t3 eq_refl); [intros []|exact Hr].
          -- exact IH3.
        * cbn [good]. cbn. intros (b & w & -> & [E|Hb] & x & r & -> & Hx & Hr); [discriminate|]. rewrite fd47' in Hx. apply (proj1 (fd47 _)) in Hx. subst x.
          apply Hs. apply in_or_app. right. left. reflexivity.
      + assert (Hne : e1 <> ELit 47) by (intros ->; congruence).
        destruct e1 as [c| | | | | |]; try (apply Hgen; intros _; discriminate).
        assert (Hm : forall (A : Type) (a b : A), match c with 47 => a | _ => b end = b).
        { intros A a b. destruct c as [|c|c]; try reflexivity. repeat (destruct c as [c|c|]; try reflexivity). congruence. }
        rewrite Hm. apply Hgen. auto.
    - (* EDirs *)
      destruct Hw1 as [Hpn Hw1]. destruct es as [|e1 es]; [contradiction|]. destruct e1 as [c| | | | | |]; try contradiction. subst c. cbn [ms_of negb].
      assert (Hw' : wf es) by apply Hw.
      assert (Hearly : good es t (W es t)) by (apply IHf; assumption).
      assert (Hstar : W es t <> MATCH -> good (EDirs :: ELit 47 :: es) t (starloop (S (length t)) cf true (lit_of (ELit 47 :: es)) (W (ELit 47 :: es)) t)).
      { intros Hne. assert (Hno : ~ L es t) by (eapply good_no; [exact Hearly|exact Hne]).
        pose proof (starloop_good true (ELit 47) es (W (ELit 47 :: es)) eq_refl ltac:(auto) ltac:(discriminate)) as HS.
        assert (Hp : forall c, ELit 47 = ELit c -> 0 < c) by (intros c [= <-]; lia).
        specialize (HS Hp IH t (S (length t)) Hc ltac:(lia)).
        destruct (starloop (S (length t)) cf true (lit_of (ELit 47 :: es)) (W (ELit 47 :: es)) t); cbn [good].
        - left. destruct HS as (u & v & H1 & _ & H2). exists u, v. auto.
        - intros [(u & v & H1 & H2)|H]; [|contradiction]. apply HS. exists u, v. auto.
        - intros u v Hu Hd [(a & b & -> & Hb)|H].
          + apply (HS (u ++ a) b); [rewrite <- app_assoc; exact Hu|exact Hb].
          + destruct (Hd (ex_intro _ _ eq_refl)) as [->|(u' & ->)].
            * cbn in Hu. subst v. contradiction.
            * apply (HS u' (47 :: v)); [rewrite Hu, <- app_assoc; reflexivity|]. cbn. exists 47, v. auto.
        - destruct HS as (E & _). discriminate.
        - exact HS. }
      destruct (W es t) eqn:Ew.
      + right. exact Hearly.
      + apply Hstar. discriminate.
      + apply Hstar. discriminate.
      + apply Hstar. discriminate.
      + contradiction.
    - destruct t as [|x t]; [apply Habort; reflexivity|]. cbn. auto.
  Qed.
End W.
