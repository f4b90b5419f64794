(** C36: the abbreviation length reported by the id shortener. *)
From Verif Require Import Base Arr Str OidModel OidSpec OidProofs ShortenModel ShortenSpec ShortenProofs.

Definition new_inv : forall min, Inv [] (shorten_new min) [[]] None.
Proof.
  intros min. constructor; cbn [shorten_new s_nodes s_count s_min s_full].
  - reflexivity.
  - rewrite repeat_length. lia.
  - lia.
  - reflexivity.
  - reflexivity.
  - reflexivity.
  - constructor; [intros []|constructor].
  - exists (repeat 0 16). reflexivity.
  - intros [|[|j]] p ch Hp Hn; cbn in Hp; try discriminate. injection Hp as <-. assert (ch = repeat 0 16) as -> by (apply Some_inj in Hn; apply Kids_inj in Hn; symmetry; exact Hn).
    split; [reflexivity|]. split; [cbn; lia|]. intros c Hc. exists 0. split; [apply nth_error_repeat; lia|]. left. split; [reflexivity|]. intros a [].
  - intros [|[|j]] p t Hp Hn; cbn in Hp; try discriminate. 
  - intros p [<-|[]] Hp. congruence.
  - intros [|[|j]] p c Hj; cbn in Hj; try discriminate. destruct p; discriminate.
  - intros a [].
Qed.

Lemma text_id text s : text_of text s -> id40 s.
Proof.
  intros (Bt & Lt & Dt). split.
  - assert (G : forall a b, digits_of a b -> length b = length a) by (intros a b F; induction F; cbn; congruence). rewrite (G _ _ Dt), firstn_length. lia.
  - clear Lt Bt. induction Dt as [|x y a b H F IH]; constructor; [eapply hexval_range; eauto|exact IH].
Qed.

(** How many nodes an addition may use. *)
Lemma push_count os idx c t b os' : push_leaf os idx c t = Ok (b, os') -> s_count os' = S (s_count os) /\ (b = false -> Z.of_nat (s_count os') = SHRT_MAX) /\ (b = true -> s_full os' = s_full os).
Proof.
  unfold push_leaf. intros H. destruct (Z.eqb_spec (Z.of_nat (S (s_count os))) SHRT_MAX) as [E|].
  { injection H as <- <-. cbn [s_count]. split; [reflexivity|]. split; [auto|discriminate]. }
  unfold set_child in H. match type of H with context [get ?a ?b] => destruct (get a b) as [[|ch]| | |] end; try discriminate; cbn [bindr] in H.
  destruct ((c <? 0) || (16 <=? c)); [discriminate|]. cbn [bindr] in H. match type of H with context [get ?a ?b] => destruct (get a b) end; try discriminate; cbn [bindr] in H.
  injection H as <- <-. cbn. split; [reflexivity|]. split; [discriminate|reflexivity].
Qed.

Lemma loop_count n : forall i idx leaf text os r os', add_loop n i idx leaf text os = Ok (r, os') ->
  (s_count os' <= s_count os + n + 1)%nat /\ (s_full os' = true -> s_full os = true \/ Z.of_nat (s_count os') = SHRT_MAX).
Proof.
  induction n as [|n IH]; intros i idx leaf text os r os' H; cbn [add_loop] in H.
  - injection H as <- <-. split; [lia|auto].
  - destruct (rd text i) as [z| | |]; try discriminate. cbn [bindr] in H. destruct (fromhex z) as [c| | |]; try discriminate. cbn [bindr] in H. destruct (c =? -1); [injection H as <- <-; split; [lia|auto]|].
    match type of H with bindr ?m _ = _ => destruct m as [[ok os1]| | |] eqn:E1 end; try discriminate. cbn [bindr] in H.
    assert (C1 : (s_count os1 <= s_count os + 1)%nat /\ (ok = false -> Z.of_nat (s_count os1) = SHRT_MAX) /\ (ok = true -> s_full os1 = s_full os)).
    { destruct leaf; [|injection E1 as <- <-; split; [lia|split; [discriminate|reflexivity]]]. destruct (get os idx) as [[t|]| | |]; try discriminate. cbn [bindr] in E1.
      destruct (rd t 0) as [z0| | |]; try discriminate. cbn [bindr] in E1. destruct (fromhex z0); try discriminate. cbn [bindr] in E1. apply push_count in E1. cbn [with_nodes s_count s_full] in E1. destruct E1 as (-> & ? & ?). split; [lia|auto]. }
    destruct C1 as (C1 & C1f & C1t). destruct ok; cbn [negb] in H; [|injection H as <- <-; split; [lia|auto]]. specialize (C1t eq_refl).
    destruct (get os1 idx) as [[|kids]| | |]; try discriminate. cbn [bindr] in H. destruct (rd kids (Z.to_nat c)) as [k| | |]; try discriminate. cbn [bindr] in H.
    destruct (k =? 0).
    + destruct (push_leaf os1 idx c (skipn (S i) text)) as [[b os2]| | |] eqn:E2; try discriminate. cbn [bindr] in H. apply push_count in E2 as (E2 & E2f & E2t).
      injection H as <- <-. split; [lia|]. destruct b; [rewrite E2t, C1t by reflexivity; auto|auto].
    + destruct (k <? 0).
      * destruct (set_child os1 idx c (- k)) as [os2| | |] eqn:E2; try discriminate. cbn [bindr] in H. 
        assert (s_count os2 = s_count os1 /\ s_full os2 = s_full os1) as [Ea Eb].
        { unfold set_child in E2. destruct (get os1 idx) as [[|]| | |]; try discriminate. cbn [bindr] in E2. destruct ((c <? 0) || (16 <=? c)); [discriminate|]. injection E2 as <-. split; reflexivity. }
        apply IH in H as [H1 H2]. split; [lia|]. rewrite Eb, C1t in H2. exact H2.
      * apply IH in H as [H1 H2]. split; [lia|]. rewrite C1t in H2. exact H2.
Qed.

(** One addition, from any state reached by successful additions of valid texts. *)
Lemma add_ok A os G text s : Inv A os G None -> text_of text s ->
  (exists e os' G', shorten_add os text = Ok (Z.max (s_min os) (Z.of_nat e + 1), os') /\ s_min os' = Z.max (s_min os) (Z.of_nat e + 1) /\ Inv (s :: A) os' G' None /\ ends_at A s e /\ (s_count os' <= s_count os + 41)%nat) \/
  (exists os', shorten_add os text = Ok (-1, os') /\ s_full os' = true /\ SHRT_MAX <= Z.of_nat (s_count os) + 41).
Proof.
  intros I Ht. unfold shorten_add. rewrite (i_notfull _ _ _ _ I).
  destruct (loop_ok text s A Ht (text_id _ _ Ht) 40 0 0 false os G eq_refl I (i_root _ _ _ _ I) (or_intror (i_root_kids _ _ _ _ I))) as [(e & os' & G' & E & M & I' & En)|(os' & E & F)]; rewrite E; cbn [bindr].
  - left. assert (Hm : (if s_min os' <? Z.of_nat (S e) then Z.of_nat (S e) else s_min os') = Z.max (s_min os) (Z.of_nat e + 1)).
    { rewrite M. destruct (Z.ltb_spec (s_min os) (Z.of_nat (S e))); lia. }
    rewrite Hm. exists e. eexists. exists G'. split; [reflexivity|]. split; [reflexivity|]. split; [|split; [exact En|cbn [s_count]; apply loop_count in E; lia]]. destruct I'. constructor; assumption.
  - right. exists os'. split; [reflexivity|]. split; [exact F|]. apply loop_count in E as [E1 E2]. destruct (E2 F) as [C|C]; [rewrite (i_notfull _ _ _ _ I) in C; discriminate|lia].
Qed.

Lemma firstn_agree {A} (a b : list A) m n : (m <= n)%nat -> firstn n a = firstn n b -> firstn m a = firstn m b.
Proof. intros L E. rewrite <- (Nat.min_l m n L), <- !firstn_firstn, E. reflexivity. Qed.

(** The invariant of a series. *)
Definition good (min : Z) (A : list (list Z)) (m : Z) : Prop :=
  (forall a b, In a A -> In b A -> NoDup A -> firstn (Z.to_nat m) a = firstn (Z.to_nat m) b -> a = b) /\ min <= m /\ (A <> [] -> 1 <= m) /\
  (NoDup A -> Z.max min 1 < m -> exists a b, In a A /\ In b A /\ a <> b /\ firstn (Z.to_nat (m - 1)) a = firstn (Z.to_nat (m - 1)) b).

Lemma good_step min A s m e : good min A m -> ends_at A s e -> id40 s -> (forall a, In a A -> id40 a) -> good min (s :: A) (Z.max m (Z.of_nat e + 1)).
Proof.
  intros (D & Lo & L1 & Mn) (Le & Hpre & Hdiv) Hs HA. split; [|split; [lia|split; [intros _; lia|]]].
  - assert (Out : forall a, In a A -> firstn (Z.to_nat (Z.max m (Z.of_nat e + 1))) a = firstn (Z.to_nat (Z.max m (Z.of_nat e + 1))) s -> a = s).
    { intros a Ha E. destruct (Nat.eq_dec e 40) as [->|Ne].
      - apply (firstn_agree _ _ 40) in E; [|lia]. destruct Hs as [Ls _]. destruct (HA a Ha) as [La _]. rewrite !firstn_all2 in E by lia. exact E.
      - exfalso. apply (Hdiv ltac:(lia) a Ha). apply (firstn_agree _ _ (S e)) in E; [exact E|lia]. }
    intros a b [<-|Ha] [<-|Hb] ND E; [reflexivity|symmetry; apply Out; auto|apply Out; auto|]. apply D; auto; [inversion ND; auto|]. apply (firstn_agree _ _ (Z.to_nat m)) in E; [exact E|lia].
  - intros ND Hm. inversion ND as [|? ? Nin ND']; subst. destruct (Z.max_spec m (Z.of_nat e + 1)) as [[C ->]|[C E]].
    + destruct Hpre as [->|(a & Ha & Ea)]; [lia|]. exists a, s. split; [right; exact Ha|]. split; [left; reflexivity|]. split; [intros ->; contradiction|]. replace (Z.to_nat (Z.of_nat e + 1 - 1)) with e by lia. exact Ea.
    + rewrite E in *. destruct (Mn ND' Hm) as (a & b & Ha & Hb & Nab & Eab). exists a, b. split; [right; exact Ha|]. split; [right; exact Hb|]. auto.
Qed.

Lemma all_ok min texts ids : Forall2 text_of texts ids -> forall A os G last, Inv A os G None -> good min A (s_min os) -> (A <> [] -> last = s_min os) -> (length A = 0%nat -> last = 0) ->
  (exists r os' G', shorten_all os texts last = Ok (r, os') /\ 0 <= r /\ (A ++ ids <> [] -> r = s_min os') /\ Inv (rev ids ++ A) os' G' None /\ good min (rev ids ++ A) (s_min os')) \/
  (exists os', shorten_all os texts last = Ok (-1, os') /\ s_full os' = true /\ SHRT_MAX <= Z.of_nat (s_count os) + 41 * Z.of_nat (length ids)).
Proof.
  intros F. induction F as [|t s texts ids Ht F IH]; intros A os G last I Hg Hl H0; cbn [shorten_all].
  - left. exists last, os, G. cbn [rev app]. split; [reflexivity|]. rewrite app_nil_r. split; [|split; [exact Hl|split; [exact I|exact Hg]]].
    destruct A; [rewrite H0 by reflexivity; lia|]. rewrite Hl by discriminate. destruct Hg as (_ & _ & L1 & _). assert (1 <= s_min os) by (apply L1; discriminate). lia.
  - destruct (add_ok A os G t s I Ht) as [(e & os1 & G1 & E & M & I1 & En & C)|(os1 & E & Fu & C)]; rewrite E; cbn [bindr].
    + destruct (Z.ltb_spec (Z.max (s_min os) (Z.of_nat e + 1)) 0); [lia|].
      destruct (IH (s :: A) os1 G1 (Z.max (s_min os) (Z.of_nat e + 1)) I1) as [(r & os' & G' & E' & R & Hr & I' & Hg')|(os' & E' & Fu & C')].
      * rewrite M. apply good_step; auto; [apply (text_id _ _ Ht)|apply I].
      * intros _. congruence.
      * discriminate.
      * left. exists r, os', G'. cbn [rev]. rewrite <- app_assoc. cbn [app]. split; [exact E'|]. split; [exact R|]. split; [intros _; apply Hr; discriminate|]. auto.
      * right. exists os'. split; [exact E'|]. split; [exact Fu|]. cbn [length]. lia.
    + right. exists os1. cbn [Z.ltb Z.compare]. split; [reflexivity|]. split; [exact Fu|]. cbn [length]. lia.
Qed.

(** C36.  Start with a minimum length, add the texts of any ids.  The shortener never
    misbehaves; unless it runs out of nodes (then -1, which cannot happen below 800
    ids) and if the ids differ, the reported length tells all ids apart and no
    shorter length at or above the minimum (and 1) does. *)
Theorem C36_shortest min texts ids : Forall2 text_of texts ids -> ids <> [] ->
  exists r os, shorten_all (shorten_new min) texts 0 = Ok (r, os) /\
    ((length ids <= 798)%nat -> 0 <= r) /\ (r < 0 -> r = -1) /\
    (0 <= r -> NoDup ids ->
       Z.max min 1 <= r /\ distinguishes (Z.to_nat r) ids /\
       forall m, Z.max min 1 <= m < r -> ~ distinguishes (Z.to_nat m) ids).
Proof.
  intros F Ne. 
  assert (G0 : good min [] (s_min (shorten_new min))).
  { split; [intros a b []|]. split; [cbn; lia|]. split; [congruence|]. cbn. intros _ H. lia. }
  destruct (all_ok min texts ids F [] (shorten_new min) [[]] 0 (new_inv min) G0) as [(r & os' & G' & E & R & Hr & I & Hg)|(os' & E & Fu & C)]; [congruence|reflexivity| |].
  - exists r, os'. split; [exact E|]. split; [lia|]. split; [lia|]. intros _ ND. rewrite app_nil_r in *. specialize (Hr Ne). subst r. destruct Hg as (D & Lo & L1 & Mn).
    assert (NR : NoDup (rev ids)) by (apply NoDup_rev; exact ND). assert (1 <= s_min os') by (apply L1; intros C; apply Ne; rewrite <- (rev_involutive ids), C; reflexivity).
    split; [lia|]. split; [intros a b Ha Hb E'; apply D; auto; rewrite <- in_rev; auto|].
    intros m Hm Hd. destruct (Mn NR ltac:(lia)) as (a & b & Ha & Hb & Nab & Eab). apply Nab. apply Hd; [apply in_rev; exact Ha|apply in_rev; exact Hb|]. apply (firstn_agree _ _ (Z.to_nat m)) in Eab; [exact Eab|lia].
  - exists (-1), os'. split; [exact E|]. split; [|split; [lia|lia]]. intros Hlen. cbn [shorten_new s_count] in C. unfold SHRT_MAX in C. lia.
Qed.

(** Three ids whose common prefixes have 0 and 2 digits: three digits are needed. *)
Definition ta : list Z := repeat 97 40 ++ [0].
Definition tb : list Z := [97; 97; 98] ++ repeat 97 37 ++ [0].
Definition tc : list Z := [48] ++ repeat 97 39 ++ [0].
Definition va : list Z := repeat 10 40.
Definition vb : list Z := [10; 10; 11] ++ repeat 10 37.
Definition vc : list Z := [0] ++ repeat 10 39.
Lemma texts_ok : Forall2 text_of [ta; tb; tc] [va; vb; vc].
Proof.
  assert (D : forall a b, Forall2 (fun x y => hexval x = Some y) a b -> digits_of a b) by (intros a b H; exact H).
  repeat constructor; try (vm_compute; lia); try discriminate.
Qed.
Example C36_nonvacuous : Forall2 text_of [ta; tb; tc] [va; vb; vc] /\ NoDup [va; vb; vc] /\
  (do (r, _) <- shorten_all (shorten_new 1) [ta; tb; tc] 0 ;; Ok r) = Ok 3 /\
  (do (r, _) <- shorten_all (shorten_new 7) [ta; tb; tc] 0 ;; Ok r) = Ok 7.
Proof.
  split; [exact texts_ok|]. split; [|split; vm_compute; reflexivity].
  repeat constructor; cbn; intuition discriminate.
Qed.

(** Adding an id twice: the reported length is one more than an id has digits. *)
Theorem C36_duplicate_refuted : ~ (forall min texts ids, min <= 40 -> Forall2 text_of texts ids -> ids <> [] ->
  forall r os, shorten_all (shorten_new min) texts 0 = Ok (r, os) -> r <= 40).
Proof.
  intros H. pose proof texts_ok as F. inversion F as [|? ? ? ? Ha _]; subst.
  specialize (H 1 [ta; ta] [va; va] ltac:(lia) (Forall2_cons _ _ Ha (Forall2_cons _ _ Ha (Forall2_nil _))) ltac:(discriminate)).
  destruct (shorten_all (shorten_new 1) [ta; ta] 0) as [[r os]| | |] eqn:E; [|vm_compute in E; discriminate..].
  specialize (H r os eq_refl).
  assert (R : (do (r, _) <- shorten_all (shorten_new 1) [ta; ta] 0 ;; Ok r) = Ok 41) by (vm_compute; reflexivity). rewrite E in R. cbn [bindr] in R. injection R as ->. lia.
Qed.

(** Texts of the right length that are not hexadecimal: the rejected or half-checked
    text leaves a node the next valid text reads through the wrong union member, or
    writes to the child number -1. *)
Definition bad1 : list Z := [97; 120] ++ repeat 97 38 ++ [0].
Definition bad2 : list Z := [97; 97; 120] ++ repeat 97 37 ++ [0].
(** After a rejected text the caller goes on. *)
Fixpoint shorten_each (os : shorten) (texts : list (list Z)) : res (list Z * shorten) :=
  match texts with
  | [] => Ok ([], os)
  | t :: r => do (v, os) <- shorten_add os t ;; do (l, os) <- shorten_each os r ;; Ok (v :: l, os)
  end.
Theorem C36_any_text_refuted : ~ (forall min texts, Forall (fun t => bytes t /\ length t = 41%nat) texts ->
  exists r, shorten_each (shorten_new min) texts = Ok r).
Proof.
  intros H. destruct (H 1 [ta; bad1; tb]) as (r & E); [|vm_compute in E; discriminate].
  repeat constructor; discriminate.
Qed.
Theorem C36_any_text_first_refuted : ~ (forall min texts, Forall (fun t => bytes t /\ length t = 41%nat) texts ->
  exists r, shorten_all (shorten_new min) texts 0 = Ok r).
Proof.
  intros H. destruct (H 1 [bad2; ta; tb]) as (r & E); [|vm_compute in E; discriminate].
  repeat constructor; discriminate.
Qed.
Print Assumptions C36_shortest.
