(** The generation numbers of the commit-graph writer. *)
From Verif Require Import Base Arr CgModel CgSpec ShortenProofs ReflogProofs.

Definition w (s : Z) : nat := if s =? 0 then 2%nat else if s =? 1 then 1%nat else 0%nat.
Fixpoint mu (st : list Z) : nat := match st with [] => 0%nat | s :: r => (w s + mu r)%nat end.
Lemma mu_upd st : forall i s x, nth_error st i = Some s -> (mu (upd st i x) + w s = mu st + w x)%nat.
Proof.
  induction st as [|a st IH]; intros [|i] s x H; try discriminate; cbn [upd mu] in *.
  - injection H as ->. lia.
  - specialize (IH i s x H). lia.
Qed.
Lemma mu_repeat n : mu (repeat 0 n) = (2 * n)%nat.
Proof. induction n; cbn [repeat mu]; [lia|]. change (w 0) with 2%nat. lia. Qed.

Lemma push_spec n : forall ps st stack, length st = n -> Forall (fun p => (p < n)%nat) ps ->
  exists st' new, push_parents ps st stack = Ok (st', new ++ stack) /\ length st' = n /\
    (length (new ++ stack) + mu st' = length stack + mu st)%nat /\ Forall (fun p => In p ps) new /\
    (forall p, In p new -> nth_error st p = Some 0) /\
    (forall j s, nth_error st j = Some s -> nth_error st' j = Some (if s =? 0 then (if in_dec Nat.eq_dec j ps then 1 else 0) else s)).
Proof.
  induction ps as [|p ps IH]; intros st stack L F; cbn [push_parents].
  - exists st, []. split; [reflexivity|]. split; [exact L|]. split; [reflexivity|]. split; [constructor|]. split.
    + intros p [].
    + intros j s H. rewrite H. destruct (Z.eqb_spec s 0) as [->|]; [|reflexivity]. destruct in_dec as [[]|]; reflexivity.
  - inversion_clear F as [|? ? Hp F']. destruct (aget_ok st p ltac:(lia)) as (s & -> & Hs). cbn [bindr].
    destruct (Z.eqb_spec s 0) as [->|Ns]; cbn [negb].
    + rewrite aset_ok by lia. cbn [bindr]. destruct (IH (upd st p 1) (p :: stack)) as (st' & new & E & L' & M & N & Z0 & S); [rewrite upd_length; exact L|exact F'|].
      exists st', (new ++ [p]). rewrite <- app_assoc. cbn [app]. split; [exact E|]. split; [exact L'|]. split.
      { pose proof (mu_upd st p 0 1 Hs) as U. change (w 0) with 2%nat in U. change (w 1) with 1%nat in U. cbn [length] in M. lia. }
      split; [apply Forall_app; split; [eapply Forall_impl; [|exact N]; cbn; auto|repeat constructor; cbn; auto]|]. split.
      { intros q Hq. apply in_app_or in Hq. destruct Hq as [Hq|[<-|[]]]; [|exact Hs].
        specialize (Z0 q Hq). rewrite nth_upd in Z0. destruct (Nat.eqb_spec q p); [|exact Z0]. rewrite Hs in Z0. discriminate. }
      intros j s Hj. specialize (S j). rewrite nth_upd in S. destruct (Nat.eqb_spec j p) as [Ej|Nj]; [rewrite Ej in *; clear Ej j|].
      * rewrite Hs in *. injection Hj as <-. rewrite (S 1 eq_refl). cbn [Z.eqb]. destruct (in_dec Nat.eq_dec p (p :: ps)) as [|C]; [reflexivity|]. exfalso. apply C. cbn. auto.
      * rewrite (S s Hj). destruct (s =? 0); [|reflexivity]. destruct (in_dec Nat.eq_dec j ps), (in_dec Nat.eq_dec j (p :: ps)) as [I|I]; try reflexivity; cbn in I; exfalso; try tauto. destruct I; [congruence|tauto].
    + destruct (IH st stack L F') as (st' & new & E & L' & M & N & Z0 & S). exists st', new. split; [exact E|]. split; [exact L'|]. split; [exact M|].
      split; [eapply Forall_impl; [|exact N]; cbn; auto|]. split; [exact Z0|].
      * intros j s' Hj. rewrite (S j s' Hj). destruct (Z.eqb_spec s' 0) as [->|]; [|reflexivity].
        destruct (in_dec Nat.eq_dec j ps), (in_dec Nat.eq_dec j (p :: ps)) as [I|I]; try reflexivity; cbn in I; exfalso; try tauto. destruct I; [congruence|tauto].
Qed.

Lemma max_gen_spec : forall ps gens g, Forall (fun p => (p < length gens)%nat) ps -> 0 <= g ->
  exists r, max_gen ps gens g = Ok r /\ r = Z.max g (max_of (map (fun p => nth p gens 0) ps)).
Proof.
  induction ps as [|p ps IH]; intros gens g F Hg; cbn [max_gen map max_of fold_right].
  - exists g. split; [reflexivity|lia].
  - inversion_clear F. destruct (aget_ok gens p ltac:(lia)) as (x & -> & Hx). cbn [bindr]. rewrite (nth_error_nth _ _ _ Hx).
    destruct (IH gens (if g <? x then x else g)) as (r & E & Hr); auto; [destruct (Z.ltb_spec g x); lia|].
    exists r. split; [exact E|]. rewrite Hr. fold (max_of (map (fun p0 => nth p0 gens 0) ps)). destruct (Z.ltb_spec g x); lia.
Qed.
Lemma max_of_nonneg l : 0 <= max_of l.
Proof. induction l; cbn; [lia|]. fold (max_of l). lia. Qed.
Lemma max_of_le l m : (forall x, In x l -> x <= m) -> 0 <= m -> max_of l <= m.
Proof. induction l as [|a l IH]; intros H Hm; cbn; [lia|]. fold (max_of l). specialize (IH (fun x Hx => H x (or_intror Hx)) Hm). specialize (H a (or_introl eq_refl)). lia. Qed.
Lemma max_of_mono {A} (f g : A -> Z) l : (forall x, In x l -> f x <= g x) -> max_of (map f l) <= max_of (map g l).
Proof. induction l as [|a l IH]; intros H; cbn; [lia|]. fold (max_of (map f l)) (max_of (map g l)). specialize (IH (fun x Hx => H x (or_intror Hx))). specialize (H a (or_introl eq_refl)). lia. Qed.
Lemma max_of_ext {A} (f g : A -> Z) l : (forall x, In x l -> f x = g x) -> max_of (map f l) = max_of (map g l).
Proof. intros H. f_equal. apply map_ext_in. exact H. Qed.

Section Gen.
  Context (pidx : list (list nat)).
  Let n := length pidx.
  Hypothesis Hwf : forall i ps, nth_error pidx i = Some ps -> Forall (fun p => (p < n)%nat) ps.

  (** What holds of the numbers at all times: [P i g]. *)
  Definition numbers (P : nat -> Z -> Prop) (st gens : list Z) (stack : list nat) : Prop :=
    length st = n /\ length gens = n /\ Forall (fun i => (i < n)%nat) stack /\
    (forall i s g, nth_error st i = Some s -> nth_error gens i = Some g -> 0 <= s <= 3 /\
       (s = 3 -> 1 <= g <= GEN_MAX /\ P i g) /\ (s <> 3 -> g = 0 /\ In i stack)).

  Lemma gen_loop_bounds (P : nat -> Z -> Prop) :
    (forall i ps gens g, nth_error pidx i = Some ps -> length gens = n ->
       (forall p x, nth_error gens p = Some x -> x = 0 \/ P p x) ->
       g = 1 + max_of (map (fun p => nth p gens 0) ps) -> g <= GEN_MAX -> P i g) ->
    (forall i ps gens, nth_error pidx i = Some ps -> length gens = n ->
       (forall p x, nth_error gens p = Some x -> x = 0 \/ P p x) ->
       max_of (map (fun p => nth p gens 0) ps) = GEN_MAX -> P i GEN_MAX) ->
    forall fuel stack st gens, (length stack + mu st <= fuel)%nat -> numbers P st gens stack ->
    exists r, gen_loop fuel pidx stack st gens = Ok r /\ length r = n /\
      forall i g, nth_error r i = Some g -> 1 <= g <= GEN_MAX /\ P i g.
  Proof.
    intros HP1 HP2. induction fuel as [|f IH]; intros stack st gens Hf (Ls & Lg & Fs & Hn).
    - destruct stack as [|i stack']; [|cbn [length] in Hf; lia]. cbn [gen_loop]. exists gens. split; [reflexivity|]. split; [exact Lg|].
      intros i g Hg. assert (Hi : (i < n)%nat) by (rewrite <- Lg; apply nth_error_Some; congruence). destruct (aget_ok st i ltac:(lia)) as (s & _ & Hs).
      destruct (Hn i s g Hs Hg) as (HR & H3 & H4). destruct (Z.eq_dec s 3) as [->|N]; [apply H3; reflexivity|]. destruct (H4 N) as [_ []].
    - destruct stack as [|i stack']; cbn [gen_loop].
      { exists gens. split; [reflexivity|]. split; [exact Lg|].
        intros i g Hg. assert (Hi : (i < n)%nat) by (rewrite <- Lg; apply nth_error_Some; congruence). destruct (aget_ok st i ltac:(lia)) as (s & _ & Hs).
        destruct (Hn i s g Hs Hg) as (HR & H3 & H4). destruct (Z.eq_dec s 3) as [->|N]; [apply H3; reflexivity|]. destruct (H4 N) as [_ []]. }
      inversion_clear Fs as [|? ? Hi Fs']. destruct (aget_ok st i ltac:(lia)) as (s & -> & Hs). cbn [bindr].
      destruct (aget_ok pidx i Hi) as (ps & -> & Hps). cbn [bindr]. destruct (aget_ok gens i ltac:(lia)) as (g0 & _ & Hg0).
      assert (Hgens : forall p x, nth_error gens p = Some x -> x = 0 \/ P p x).
      { intros p x Hx. assert (Hp : (p < n)%nat) by (rewrite <- Lg; apply nth_error_Some; congruence). destruct (aget_ok st p ltac:(lia)) as (sp & _ & Hsp).
        destruct (Hn p sp x Hsp Hx) as (HR & H3 & H4). destruct (Z.eq_dec sp 3) as [->|N]; [right; apply H3; reflexivity|left; apply H4; exact N]. }
      assert (Hle : max_of (map (fun p => nth p gens 0) ps) <= GEN_MAX).
      { apply max_of_le; [|discriminate]. intros x Hx. apply in_map_iff in Hx as (p & <- & Hp). pose proof (Hwf i ps Hps) as Fp. rewrite Forall_forall in Fp. specialize (Fp p Hp).
        destruct (aget_ok gens p ltac:(lia)) as (y & _ & Hy). rewrite (nth_error_nth _ _ _ Hy). destruct (aget_ok st p ltac:(lia)) as (sp & _ & Hsp).
        destruct (Hn p sp y Hsp Hy) as (HR & H3 & H4). destruct (Z.eq_dec sp 3) as [->|N]; [apply H3; reflexivity|]. destruct (H4 N) as [-> _]. discriminate. }
      destruct (Z.eqb_spec s 3) as [->|N3].
      + apply IH; [cbn [length] in Hf; lia|]. split; [exact Ls|]. split; [exact Lg|]. split; [exact Fs'|].
        intros j sj gj H1 H2. destruct (Hn j sj gj H1 H2) as (HR & H3 & H4). split; [exact HR|]. split; [exact H3|].
        intros Ns. destruct (H4 Ns) as [E [->|I]]; [congruence|auto].
      + destruct (Z.eqb_spec s 2) as [->|N2].
        * destruct (max_gen_spec ps gens 0) as (r & -> & Hr); [rewrite Lg; apply (Hwf i ps Hps)|lia|]. cbn [bindr].
          pose proof (max_of_nonneg (map (fun p => nth p gens 0) ps)) as Hnn.
          set (v := if r <? GEN_MAX then r + 1 else r). rewrite aset_ok by lia. cbn [bindr]. rewrite aset_ok by lia. cbn [bindr].
          assert (Hv : 1 <= v <= GEN_MAX /\ P i v).
          { unfold v. destruct (Z.ltb_spec r GEN_MAX).
            - split; [lia|]. apply (HP1 i ps gens); auto; lia.
            - assert (E : r = GEN_MAX) by lia. rewrite E. split; [split; discriminate|]. apply (HP2 i ps gens); auto. lia. }
          apply IH.
          { pose proof (mu_upd st i 2 3 Hs) as U. change (w 2) with 0%nat in U. change (w 3) with 0%nat in U. cbn [length] in Hf. lia. }
          split; [rewrite upd_length; exact Ls|]. split; [rewrite upd_length; exact Lg|]. split; [exact Fs'|].
          intros j sj gj. rewrite !nth_upd. destruct (Nat.eqb_spec j i) as [->|Nj].
          { rewrite Hs, Hg0. intros Q1 Q2. injection Q1 as <-. injection Q2 as <-. split; [lia|]. split; [intros _; exact Hv|congruence]. }
          intros H1 H2. destruct (Hn j sj gj H1 H2) as (HR & H3 & H4). split; [exact HR|]. split; [exact H3|]. intros Ns. destruct (H4 Ns) as [E [->|I]]; [congruence|auto].
        * destruct ps as [|p ps'] eqn:Eps.
          { rewrite aset_ok by lia. cbn [bindr]. rewrite aset_ok by lia. cbn [bindr]. apply IH.
            { pose proof (mu_upd st i s 3 Hs) as U. change (w 3) with 0%nat in U. cbn [length] in Hf. lia. }
            split; [rewrite upd_length; exact Ls|]. split; [rewrite upd_length; exact Lg|]. split; [exact Fs'|].
            intros j sj gj. rewrite !nth_upd. destruct (Nat.eqb_spec j i) as [->|Nj].
            { rewrite Hs, Hg0. intros Q1 Q2. injection Q1 as <-. injection Q2 as <-. split; [lia|]. split; [intros _|congruence].
              split; [split; discriminate|]. apply (HP1 i [] gens); auto. }
            intros H1 H2. destruct (Hn j sj gj H1 H2) as (HR & H3 & H4). split; [exact HR|]. split; [exact H3|]. intros Ns. destruct (H4 Ns) as [E [->|I]]; [congruence|auto]. }
          cbv iota. rewrite <- Eps in *.
          destruct (push_spec n ps st (i :: stack') Ls (Hwf i ps Hps)) as (st1 & new & -> & L1 & M & Fn & _ & S). cbn [bindr].
          rewrite aset_ok by lia. cbn [bindr]. apply IH.
          { pose proof (S i s Hs) as S1. destruct (Hn i s g0 Hs Hg0) as (HR & _). pose proof (mu_upd st1 i _ 2 S1) as U. change (w 2) with 0%nat in U.
            assert (1 <= w (if s =? 0 then if in_dec Nat.eq_dec i ps then 1 else 0 else s)%Z)%nat; [|cbn [length] in *; lia].
            clear - HR N2 N3. destruct (Z.eqb_spec s 0) as [E0|N0]; [destruct (in_dec Nat.eq_dec i ps); cbn; lia|].
            (* states other than 0, 1, 2, 3 do not occur: weight *)
            assert (E1 : s = 1) by lia. rewrite E1. cbn. lia. }
          split; [rewrite upd_length; exact L1|]. split; [exact Lg|]. split.
          { apply Forall_app. split; [|constructor; auto]. rewrite Forall_forall in *. intros x Hx. specialize (Fn x Hx). pose proof (Hwf i ps Hps) as Fp. rewrite Forall_forall in Fp. auto. }
          intros j sj gj. rewrite !nth_upd. destruct (Nat.eqb_spec j i) as [->|Nj].
          { rewrite (S i s Hs), Hg0. intros Q1 Q2. injection Q1 as <-. injection Q2 as <-. split; [lia|]. split; [discriminate|]. intros _. split; [apply (Hn i s g0 Hs Hg0); exact N3|apply in_or_app; right; left; reflexivity]. }
          intros H1 H2. assert (Hj : (j < n)%nat) by (rewrite <- Lg; apply nth_error_Some; congruence). destruct (aget_ok st j ltac:(lia)) as (sj0 & _ & Hsj0).
          rewrite (S j sj0 Hsj0) in H1. injection H1 as <-. destruct (Hn j sj0 gj Hsj0 H2) as (HR & H3 & H4). split; [destruct (sj0 =? 0); [destruct in_dec; lia|lia]|]. split.
          { intros E. apply H3. destruct (sj0 =? 0); [destruct in_dec; discriminate|exact E]. }
          intros Ns. assert (N' : sj0 <> 3) by (intros ->; apply Ns; reflexivity). destruct (H4 N') as [E I]. split; [exact E|apply in_or_app; right; exact I].
  Qed.

  Lemma start_numbers P : numbers P (repeat 0 n) (repeat 0 n) (rev (seq 0 n)).
  Proof.
    split; [apply repeat_length|]. split; [apply repeat_length|]. split.
    { rewrite Forall_forall. intros i Hi. apply in_rev, in_seq in Hi. lia. }
    intros i s g H1 H2. assert (Hi : (i < n)%nat) by (rewrite <- (repeat_length 0 n); apply nth_error_Some; congruence).
    apply nth_error_In, repeat_spec in H1, H2. subst. split; [lia|]. split; [discriminate|]. intros _. split; [reflexivity|]. apply -> in_rev. apply in_seq. lia.
  Qed.
  Lemma start_fuel : (length (rev (seq 0 n)) + mu (repeat 0%Z n) <= 3 * n)%nat.
  Proof. rewrite rev_length, seq_length, mu_repeat. lia. Qed.

  (** *** At most one parent per commit *)
  Section Linear.
    Context (G : nat -> Z).
    Hypothesis HG : is_generation pidx G.
    Hypothesis Hmax : forall i, (i < n)%nat -> G i <= GEN_MAX.
    Hypothesis Hone : forall i ps, nth_error pidx i = Some ps -> (length ps <= 1)%nat.

    Lemma G_pos i : (i < n)%nat -> 0 < G i.
    Proof. intros H. destruct (aget_ok pidx i H) as (ps & _ & Hp). apply (HG i ps Hp). Qed.
    Lemma G_parent i p : nth_error pidx i = Some [p] -> G i = 1 + G p /\ (p < n)%nat.
    Proof. intros H. destruct (HG i [p] H) as (F & E & _). inversion_clear F. split; [|assumption]. cbn in E. pose proof (G_pos p ltac:(assumption)). lia. Qed.
    Lemma G_root i : nth_error pidx i = Some [] -> G i = 1.
    Proof. intros H. apply (HG i [] H). Qed.

    (** The commits being expanded: each the parent of the next. *)
    Fixpoint chain (l : list nat) : Prop :=
      match l with a :: ((b :: _) as r) => nth_error pidx b = Some [a] /\ chain r | _ => True end.
    Lemma chain_gt a l : chain (a :: l) -> forall x, In x l -> G a < G x.
    Proof.
      revert a. induction l as [|b l IH]; intros a H x Hx; [destruct Hx|]. destruct H as [H1 H2]. destruct (G_parent b a H1).
      destruct Hx as [->|Hx]; [lia|]. specialize (IH b H2 x Hx). lia.
    Qed.

    Definition inv (st gens : list Z) (stack pend path init : list nat) : Prop :=
      length st = n /\ length gens = n /\ stack = pend ++ path ++ init /\ Forall (fun i => (i < n)%nat) stack /\
      (length pend <= 1)%nat /\ chain (pend ++ path) /\
      (pend = [] -> forall e r p, path = e :: r -> nth_error pidx e = Some [p] -> nth_error st p = Some 3) /\
      (forall e, In e path -> exists p, nth_error pidx e = Some [p]) /\
      (forall i s g, nth_error st i = Some s -> nth_error gens i = Some g ->
        0 <= s <= 3 /\ (s = 1 <-> In i pend) /\ (s = 2 <-> In i path) /\ (s = 3 -> g = G i) /\ (s <> 3 -> g = 0)).

    Lemma gen_loop_linear : forall fuel st gens stack pend path init r, inv st gens stack pend path init ->
      gen_loop fuel pidx stack st gens = Ok r -> forall i g, nth_error r i = Some g -> g = 0 \/ g = G i.
    Proof.
      induction fuel as [|f IH]; intros st gens stack pend path init r (Ls & Lg & Es & Fs & Lp & Hc & Hpar & Hpath & Hn) E.
      - destruct stack as [|? ?]; [|discriminate]. cbn [gen_loop] in E. apply Ok_inj in E. subst r. intros i g Hg.
        assert (Hi : (i < n)%nat) by (rewrite <- Lg; apply nth_error_Some; congruence). destruct (aget_ok st i ltac:(lia)) as (s & _ & Hs).
        destruct (Hn i s g Hs Hg) as (_ & _ & _ & H3 & H4). destruct (Z.eq_dec s 3); auto.
      - destruct stack as [|i stack']; cbn [gen_loop] in E.
        { apply Ok_inj in E. subst r. intros i g Hg. assert (Hi : (i < n)%nat) by (rewrite <- Lg; apply nth_error_Some; congruence). destruct (aget_ok st i ltac:(lia)) as (s & _ & Hs).
          destruct (Hn i s g Hs Hg) as (_ & _ & _ & H3 & H4). destruct (Z.eq_dec s 3); auto. }
        inversion_clear Fs as [|? ? Hi Fs']. destruct (aget_ok st i ltac:(lia)) as (s & Es1 & Hs). rewrite Es1 in E. cbn [bindr] in E. clear Es1.
        destruct (aget_ok pidx i Hi) as (ps & Ep1 & Hps). rewrite Ep1 in E. cbn [bindr] in E. clear Ep1. destruct (aget_ok gens i ltac:(lia)) as (g0 & _ & Hg0).
        (* a commit seen for the first time, below the expanded ones [path] *)
        assert (First : forall pend' init', stack' = path ++ init' -> (pend' = [i] /\ s = 1 \/ pend' = [] /\ path = [] /\ s = 0) -> pend = pend' -> chain (i :: path) ->
          forall i g, nth_error r i = Some g -> g = 0 \/ g = G i).
        { intros pend' init' Es' Hcase Epend Hch.
          assert (Hs01 : s = 0 \/ s = 1) by tauto.
          destruct (Z.eqb_spec s 3); [lia|]. destruct (Z.eqb_spec s 2); [lia|].
          assert (Ni : ~ In i path) by (intros C; pose proof (chain_gt i path Hch i C); lia).
          assert (Hpend : forall j, In j pend -> j = i) by (intros j Hj; destruct Hcase as [[-> _]|[-> _]]; subst pend; [destruct Hj as [|[]]; auto|destruct Hj]).
          pose proof (Hone i ps Hps) as Hl. destruct ps as [|p [|? ?]]; [| |cbn in Hl; lia].
          - rewrite aset_ok in E by lia. cbn [bindr] in E. rewrite aset_ok in E by lia. cbn [bindr] in E.
            refine (IH _ _ _ [] path init' r _ E). unfold inv.
            split; [rewrite upd_length; exact Ls|]. split; [rewrite upd_length; exact Lg|]. split; [exact Es'|]. split; [exact Fs'|]. split; [cbn; lia|].
            split; [destruct path; [exact I|apply Hch]|]. split.
            { intros _ e r' p -> Hp. destruct Hch as [H1 _]. rewrite H1 in Hp. injection Hp as <-. rewrite nth_upd, Nat.eqb_refl, Hs. reflexivity. }
            split; [exact Hpath|]. intros j sj gj. rewrite !nth_upd. destruct (Nat.eqb_spec j i) as [->|Nj].
            { rewrite Hs, Hg0. intros Q1 Q2. injection Q1 as <-. injection Q2 as <-. split; [lia|]. split; [split; [discriminate|intros []]|].
              split; [split; [discriminate|tauto]|]. split; [intros _; symmetry; apply G_root; exact Hps|congruence]. }
            intros H1 H2. destruct (Hn j sj gj H1 H2) as (HR & Ha & Hb & Hd & He). split; [exact HR|]. split; [split; [intros S1; destruct (Nj (Hpend j (proj1 Ha S1)))|intros []]|]. auto.
          - destruct (G_parent i p Hps) as [GE Hp]. destruct (aget_ok st p ltac:(lia)) as (sp & Esp & Hsp). destruct (aget_ok gens p ltac:(lia)) as (gp & _ & Hgp).
            destruct (Hn p sp gp Hsp Hgp) as (HRp & Hap & Hbp & Hdp & Hep).
            assert (Npi : p <> i) by (intros ->; lia).
            assert (Hsp' : sp = 0 \/ sp = 3).
            { destruct (Z.eq_dec sp 1) as [S1|]; [destruct (Npi (Hpend p (proj1 Hap S1)))|]. destruct (Z.eq_dec sp 2) as [S2|]; [|lia].
              pose proof (chain_gt i path Hch p (proj1 Hbp S2)). lia. }
            cbn [push_parents] in E. rewrite Esp in E. cbn [bindr] in E.
            assert (Base : forall st1, length st1 = n -> (forall j, j <> p -> nth_error st1 j = nth_error st j) ->
              forall pend1, (nth_error st1 p = Some 1 /\ sp = 0 /\ pend1 = [p] \/ nth_error st1 p = Some 3 /\ sp = 3 /\ pend1 = []) ->
              gen_loop f pidx (pend1 ++ i :: stack') (upd st1 i 2) gens = Ok r -> forall i g, nth_error r i = Some g -> g = 0 \/ g = G i).
            { intros st1 L1 Hst1 pend1 Hp1 E1. refine (IH _ _ _ pend1 (i :: path) init' r _ E1). unfold inv.
              split; [rewrite upd_length; exact L1|]. split; [exact Lg|]. split; [rewrite Es'; reflexivity|].
              split; [apply Forall_app; split; [destruct Hp1 as [[_ [_ ->]]|[_ [_ ->]]]; repeat constructor; exact Hp|constructor; assumption]|].
              split; [destruct Hp1 as [[_ [_ ->]]|[_ [_ ->]]]; cbn; lia|].
              split; [destruct Hp1 as [[_ [_ ->]]|[_ [_ ->]]]; [split; [exact Hps|exact Hch]|exact Hch]|]. split.
              { intros E0 e r' q Ee Hq. injection Ee as <- <-. rewrite Hps in Hq. injection Hq as <-. destruct Hp1 as [[_ [_ ->]]|[S3 _]]; [discriminate|].
                rewrite nth_upd. destruct (Nat.eqb_spec p i); [congruence|exact S3]. }
              split; [intros e [<-|He]; [eauto|apply Hpath; exact He]|].
              intros j sj gj. rewrite nth_upd. destruct (Nat.eqb_spec j i) as [->|Nj].
              { rewrite (Hst1 i) by congruence. rewrite Hs. intros Q1 H2. injection Q1 as <-. split; [lia|].
                split; [split; [discriminate|intros C; destruct Hp1 as [[_ [_ ->]]|[_ [_ ->]]]; [destruct C as [C|[]]; congruence|destruct C]]|].
                split; [split; [intros _; left; reflexivity|intros _; reflexivity]|]. split; [discriminate|]. intros _. destruct (Hn i s gj Hs H2) as (_ & _ & _ & _ & He). apply He. lia. }
              intros H1 H2. destruct (Nat.eq_dec j p) as [->|Np].
              { destruct Hp1 as [[S1 [Z0 ->]]|[S3 [S3' ->]]].
                - rewrite S1 in H1. injection H1 as <-. split; [lia|]. split; [split; [intros _; left; reflexivity|reflexivity]|].
                  split; [split; [discriminate|intros [C|C]; [congruence|apply Hbp in C; lia]]|]. split; [discriminate|]. intros _. rewrite Hgp in H2. injection H2 as <-. 
                  apply Hep. lia.
                - rewrite S3 in H1. injection H1 as <-. rewrite Hgp in H2. injection H2 as <-. split; [lia|]. split; [split; [discriminate|intros []]|].
                  split; [split; [discriminate|intros [C|C]; [congruence|apply Hbp in C; lia]]|]. split; [intros _; apply Hdp; exact S3'|congruence]. }
              rewrite (Hst1 j Np) in H1. destruct (Hn j sj gj H1 H2) as (HR & Ha & Hb & Hd & He). split; [exact HR|].
              split; [split; [intros S1; destruct (Nj (Hpend j (proj1 Ha S1)))|intros C; destruct Hp1 as [[_ [_ ->]]|[_ [_ ->]]]; [destruct C as [C|[]]; congruence|destruct C]]|].
              split; [split; [intros S2; right; apply Hb; exact S2|intros [C|C]; [congruence|apply Hb; exact C]]|]. auto. }
            destruct Hsp' as [-> | ->]; cbn [Z.eqb negb] in E.
            + rewrite aset_ok in E by lia. cbn [bindr] in E. rewrite aset_ok in E by (rewrite upd_length; lia). cbn [bindr] in E.
              refine (Base (upd st p 1) _ _ [p] _ E); [rewrite upd_length; exact Ls|intros j Nj; apply upd_nth_neq; congruence|left; split; [apply upd_nth_eq; lia|split; reflexivity]].
            + cbn [bindr] in E. change (negb (3 =? 0)) with true in E. cbv iota in E. cbn [bindr] in E. rewrite aset_ok in E by lia. cbn [bindr] in E. refine (Base st Ls _ [] _ E); auto. }
        destruct pend as [|x [|? ?]]; [| |cbn in Lp; lia].
        + destruct path as [|e path'].
          * (* from the initial copies *)
            cbn [app] in Es. destruct (Hn i s g0 Hs Hg0) as (HR & Ha & Hb & Hd & He).
            assert (S03 : s = 0 \/ s = 3) by (destruct (Z.eq_dec s 1) as [S1|]; [destruct (proj1 Ha S1)|]; destruct (Z.eq_dec s 2) as [S2|]; [destruct (proj1 Hb S2)|]; lia).
            destruct S03 as [S0|S3].
            { refine (First [] stack' _ _ _ _); auto. }
            destruct (Z.eqb_spec s 3); [|congruence]. refine (IH _ _ _ [] [] stack' r _ E). 
            unfold inv. split; [exact Ls|]. split; [exact Lg|]. split; [reflexivity|]. split; [exact Fs'|]. split; [cbn; lia|]. split; [exact I|]. split; [discriminate|]. split; [intros ? []|]. exact Hn.
          * cbn [app] in Es. injection Es as <- ->. destruct (Hn i s g0 Hs Hg0) as (HR & Ha & Hb & Hd & He).
            assert (S2 : s = 2) by (apply Hb; left; reflexivity). rewrite S2 in *. destruct (Z.eqb_spec 2 3); [discriminate|]. destruct (Z.eqb_spec 2 2); [|congruence].
            destruct (Hpath i (or_introl eq_refl)) as (p & Hp). rewrite Hp in Hps. injection Hps as <-. destruct (G_parent i p Hp) as [GE Hpn].
            pose proof (Hpar eq_refl i path' p eq_refl Hp) as S3. destruct (aget_ok gens p ltac:(lia)) as (gp & Egp & Hgp).
            destruct (Hn p 3 gp S3 Hgp) as (_ & _ & _ & Hgp3 & _). specialize (Hgp3 eq_refl). subst gp.
            cbn [max_gen] in E. rewrite Egp in E. cbn [bindr] in E. pose proof (G_pos p Hpn). destruct (Z.ltb_spec 0 (G p)); [|lia]. cbn [bindr] in E.
            pose proof (Hmax i Hi). destruct (Z.ltb_spec (G p) GEN_MAX); [|lia].
            rewrite aset_ok in E by lia. cbn [bindr] in E. rewrite aset_ok in E by lia. cbn [bindr] in E.
            assert (Ni : ~ In i path') by (intros C; pose proof (chain_gt i path' Hc i C); lia).
            refine (IH _ _ _ [] path' init r _ E). unfold inv.
            split; [rewrite upd_length; exact Ls|]. split; [rewrite upd_length; exact Lg|]. split; [reflexivity|]. split; [exact Fs'|]. split; [cbn; lia|].
            split; [destruct path'; [exact I|apply Hc]|]. split.
            { intros _ e1 r' q -> Hq. destruct Hc as [Hc1 _]. rewrite Hc1 in Hq. injection Hq as <-. rewrite nth_upd, Nat.eqb_refl, Hs. reflexivity. }
            split; [intros e1 He'; apply Hpath; right; exact He'|]. intros j sj gj. rewrite !nth_upd. destruct (Nat.eqb_spec j i) as [->|Nj].
            { rewrite Hs, Hg0. intros Q1 Q2. injection Q1 as <-. injection Q2 as <-. split; [lia|]. split; [split; [discriminate|intros []]|].
              split; [split; [discriminate|tauto]|]. split; [intros _; lia|congruence]. }
            intros Q1 Q2. destruct (Hn j sj gj Q1 Q2) as (HRj & Haj & Hbj & Hdj & Hej). split; [exact HRj|]. split; [exact Haj|].
            split; [split; [intros Q; destruct (proj1 Hbj Q); [congruence|assumption]|intros Q; apply Hbj; right; exact Q]|]. auto.
        + cbn [app] in Es. injection Es as <- ->. destruct (Hn i s g0 Hs Hg0) as (HR & Ha & Hb & Hd & He). refine (First [i] init _ _ _ _); auto. left. split; [reflexivity|]. apply Ha. left. reflexivity.
    Qed.
  End Linear.
End Gen.
