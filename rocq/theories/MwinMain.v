From Coq Require Import Permutation.
From Verif Require Import Base ShortenProofs ReflogProofs MwinModel MwinSpec MwinProofs.

Definition with_curs (c : ctl) (l : list (nat * nat)) : ctl := mkc (c_mapped c) (c_open c) (c_ctr c) (c_reg c) (c_files c) (c_next c) (c_wsize c) (c_limit c) (c_flimit c) l.
Lemma shrunk_curs c c' l : shrunk c c' -> shrunk (with_curs c l) (with_curs c' l).
Proof. intros [A1 A2 A3 A6 A7 A8 A9 A10 A11]. split; auto. Qed.
Lemma inv_mapped n c m : inv n c -> inv n (with_mapped c m).
Proof. intros [J1 J2 J3 J4 J5 J6 J7 J8 J9]. split; auto. Qed.
(** A window goes on existing. *)
Definition same (w w' : win) : Prop := w_id w' = w_id w /\ w_off w' = w_off w /\ w_len w' = w_len w.
Definition kept (c c' : ctl) (id : nat) : Prop := forall f w, mapped c f w -> w_id w = id -> exists w', mapped c' f w' /\ same w w'.
Lemma same_refl w : same w w.
Proof. repeat split. Qed.
Lemma kept_refl c id : kept c c id.
Proof. intros f w H E. exists w. split; [exact H|apply same_refl]. Qed.
Lemma kept_trans a b c id : kept a b id -> kept b c id -> kept a c id.
Proof.
  intros A B f w H E. destruct (A f w H E) as (w1 & H1 & S1 & S2 & S3). destruct (B f w1 H1 ltac:(congruence)) as (w2 & H2 & T1 & T2 & T3).
  exists w2. split; [exact H2|]. unfold same. repeat split; congruence.
Qed.
Lemma mapped_in c f w : mapped c f w -> In w (allw c).
Proof. intros (x & Hx & Hw). apply in_allf. eauto. Qed.
Lemma kept_shrunk n c c' cu id : inv n c -> shrunk c c' -> In (cu, id) (c_curs c) -> kept c c' id.
Proof.
  intros J S Hc f w (x & Hx & Hw) E. destruct (nth_error (c_files c') f) as [y|] eqn:Hy.
  - destruct (s_file _ _ S _ _ Hy) as (x1 & Hx1 & _ & _ & K). assert (x1 = x) by congruence. subst x1. exists w. split; [|apply same_refl]. exists y. split; [exact Hy|]. apply K; [exact Hw|].
    rewrite (i_cnt _ _ J w); [|apply in_allf; eauto]. rewrite E. apply cnt_pos in Hc. lia.
  - apply nth_error_None in Hy. assert (f < length (c_files c))%nat by (apply nth_error_Some; congruence). rewrite (s_len _ _ S) in Hy. lia.
Qed.

(** *** Changing one window *)
Definition upd (id : nat) (g : win -> win) (w : win) : win := if (w_id w =? id)%nat then g w else w.
Lemma allf_at fs id g : allf (at_win fs id g) = map (upd id g) (allf fs).
Proof. unfold allf, at_win. rewrite map_map. cbn [f_wins]. rewrite concat_map, map_map. reflexivity. Qed.
Lemma at_nth fs id g f : nth_error (at_win fs id g) f = option_map (fun x => mkf (f_size x) (map (upd id g) (f_wins x))) (nth_error fs f).
Proof. unfold at_win. rewrite nth_error_map. reflexivity. Qed.
Lemma upd_same id g w : (forall v, same v (g v)) -> same w (upd id g w).
Proof. intros H. unfold upd. destruct (_ =? _)%nat; [apply H|apply same_refl]. Qed.
Lemma dec_same v : same v (dec_use v).
Proof. repeat split. Qed.
Lemma use_same t v : same v (use t v).
Proof. repeat split. Qed.
Lemma kept_at c c' id g i : (forall v, same v (g v)) -> c_files c' = at_win (c_files c) id g -> kept c c' i.
Proof.
  intros Hg E f w (x & Hx & Hw) _. exists (upd id g w). split; [|now apply upd_same]. exists (mkf (f_size x) (map (upd id g) (f_wins x))). split.
  - rewrite E, at_nth, Hx. reflexivity.
  - cbn. now apply in_map.
Qed.
Lemma upd_ids id g l : (forall v, same v (g v)) -> map w_id (map (upd id g) l) = map w_id l.
Proof. intros H. rewrite map_map. apply map_ext. intros w. now apply (upd_same id g w). Qed.

Lemma drop_in l cu p : In p (drop_cursor l cu) <-> In p l /\ fst p <> cu.
Proof. unfold drop_cursor. rewrite filter_In, negb_true_iff, Nat.eqb_neq. reflexivity. Qed.
Lemma drop_len l cu : (length (drop_cursor l cu) <= length l)%nat.
Proof. unfold drop_cursor. induction l as [|p l IH]; cbn; [lia|]. destruct (negb _); cbn; lia. Qed.
Lemma drop_none l cu : ~ In cu (map fst l) -> drop_cursor l cu = l.
Proof.
  intros H. unfold drop_cursor. induction l as [|p l IH]; [reflexivity|]. cbn in *. destruct (fst p =? cu)%nat eqn:E.
  - apply Nat.eqb_eq in E. tauto.
  - cbn. rewrite IH; tauto.
Qed.
Lemma drop_keys l cu : NoDup (map fst l) -> NoDup (map fst (drop_cursor l cu)).
Proof.
  unfold drop_cursor. induction l as [|p l IH]; intros H; [constructor|]. inversion H; subst. cbn. destruct (negb _) eqn:E; [|auto]. cbn. constructor; [|auto].
  intros Hi. apply in_map_iff in Hi. destruct Hi as (q & Eq & Hq). apply filter_In in Hq. destruct Hq as [Hq _]. apply H2. rewrite <- Eq. now apply in_map.
Qed.
Lemma cnt_drop l cu id i : NoDup (map fst l) -> In (cu, id) l -> cnt l i = (cnt (drop_cursor l cu) i + (if (i =? id)%nat then 1 else 0))%nat.
Proof.
  induction l as [|p l IH]; intros N H; [contradiction|]. cbn in N. apply NoDup_cons_iff in N. destruct N as [N1 N2]. destruct H as [->|H].
  - unfold drop_cursor. cbn [filter fst]. rewrite Nat.eqb_refl. cbn [negb]. fold (drop_cursor l cu). rewrite (drop_none l cu N1). unfold cnt. cbn [filter snd]. rewrite Nat.eqb_sym. destruct (i =? id)%nat; cbn; lia.
  - specialize (IH N2 H). unfold drop_cursor. cbn [filter]. destruct (fst p =? cu)%nat eqn:E.
    + exfalso. apply Nat.eqb_eq in E. apply N1. rewrite E. change cu with (fst (cu, id)). now apply in_map.
    + cbn [negb]. fold (drop_cursor l cu). unfold cnt in *. cbn [filter]. destruct (snd p =? i)%nat; cbn [length]; lia.
Qed.
Lemma cnt_le l i : (cnt l i <= length l)%nat.
Proof. unfold cnt. induction l as [|p l IH]; cbn; [lia|]. destruct (_ =? _)%nat; cbn; lia. Qed.
Lemma cursor_some c cu id : NoDup (map fst (c_curs c)) -> cursor c cu = Some id <-> In (cu, id) (c_curs c).
Proof.
  unfold cursor. induction (c_curs c) as [|[k v] l IH]; intros N; [split; [discriminate|contradiction]|]. cbn in N. apply NoDup_cons_iff in N. destruct N as [N1 N2]. cbn [find fst].
  destruct (k =? cu)%nat eqn:E.
  - apply Nat.eqb_eq in E. subst k. cbn. split; [intros H; injection H as ->; now left|]. intros [H|H]; [injection H as ->; reflexivity|]. exfalso. apply N1. change cu with (fst (cu, id)). now apply in_map.
  - rewrite (IH N2). apply Nat.eqb_neq in E. split; [now right|]. intros [H|H]; [congruence|exact H].
Qed.
Lemma cursor_none c cu : cursor c cu = None <-> ~ In cu (map fst (c_curs c)).
Proof.
  unfold cursor. induction (c_curs c) as [|[k v] l IH]; [split; auto|]. cbn [find fst map]. destruct (k =? cu)%nat eqn:E.
  - apply Nat.eqb_eq in E. subst. split; [discriminate|]. intros H. exfalso. apply H. now left.
  - rewrite IH. apply Nat.eqb_neq in E. cbn. split; [intros H [G|G]; auto|auto].
Qed.
Lemma live_some c w : NoDup (map w_id (allw c)) -> In w (allw c) -> live c (w_id w) = Some w.
Proof.
  unfold live. fold (allw c). induction (allw c) as [|v l IH]; intros N H; [contradiction|]. cbn in N. apply NoDup_cons_iff in N. destruct N as [N1 N2]. cbn [find].
  destruct H as [->|H]; [now rewrite Nat.eqb_refl|]. destruct (w_id v =? w_id w)%nat eqn:E; [|auto]. apply Nat.eqb_eq in E. exfalso. apply N1. rewrite E. now apply in_map.
Qed.
Lemma same_win c w v : NoDup (map w_id (allw c)) -> In w (allw c) -> In v (allw c) -> w_id v = w_id w -> v = w.
Proof. intros N Hw Hv E. pose proof (live_some c w N Hw) as A. pose proof (live_some c v N Hv) as B. rewrite E in B. congruence. Qed.

Lemma inv_dec n c cu id m op ctr reg next : inv n c -> Z.of_nat n < 2 ^ 64 -> In (cu, id) (c_curs c) -> next = c_next c ->
  inv n (mkc m op ctr reg (at_win (c_files c) id dec_use) next (c_wsize c) (c_limit c) (c_flimit c) (drop_cursor (c_curs c) cu)).
Proof.
  intros [J1 J2 J3 J4 J5 J6 J7 J8 J9] Hn Hc ->. split; cbn; auto.
  - unfold allw in *; cbn. fold (allf (at_win (c_files c) id dec_use)). rewrite allf_at, upd_ids; [exact J1|apply dec_same].
  - unfold allw; cbn. fold (allf (at_win (c_files c) id dec_use)). intros w. rewrite allf_at. intros H. apply in_map_iff in H. destruct H as (v & <- & Hv). destruct (upd_same id dec_use v dec_same) as (-> & _). now apply J2.
  - unfold allw; cbn. fold (allf (at_win (c_files c) id dec_use)). intros w. rewrite allf_at. intros H. apply in_map_iff in H. destruct H as (v & <- & Hv). destruct (upd_same id dec_use v dec_same) as (-> & _).
    pose proof (J3 v Hv) as E. rewrite (cnt_drop _ _ _ (w_id v) J4 Hc) in E. unfold upd. pose proof (cnt_le (drop_cursor (c_curs c) cu) (w_id v)) as L. pose proof (drop_len (c_curs c) cu) as L2.
    revert E. destruct (w_id v =? id)%nat; cbn [dec_use w_inuse]; intros E; cbv iota in E; fold (cnt (drop_cursor (c_curs c) cu) (w_id v)); [|lia]. rewrite E. unfold u64. rewrite Z.mod_small; lia.
  - now apply drop_keys.
  - intros cu' id' H. apply drop_in in H. destruct H as [H _]. destruct (J5 _ _ H) as (w & Hw & Hi). exists (upd id dec_use w). split.
    + unfold allw; cbn. fold (allf (at_win (c_files c) id dec_use)). rewrite allf_at. now apply in_map.
    + destruct (upd_same id dec_use w dec_same) as (-> & _). exact Hi.
  - intros f x w. rewrite at_nth. intros H Hw. destruct (nth_error (c_files c) f) as [y|] eqn:Hy; [|discriminate]. cbn in H. injection H as <-. cbn [f_wins f_size] in *. apply in_map_iff in Hw. destruct Hw as (v & <- & Hv).
    destruct (upd_same id dec_use v dec_same) as (_ & -> & ->). eauto.
  - intros f x. rewrite at_nth. intros H. destruct (nth_error (c_files c) f) as [y|] eqn:Hy; [|discriminate]. cbn in H. injection H as <-. cbn. eauto.
  - pose proof (drop_len (c_curs c) cu). lia.
Qed.
Lemma inv_use n c cu w t m op ctr reg : inv n c -> Z.of_nat (S n) < 2 ^ 64 -> In w (allw c) -> ~ In cu (map fst (c_curs c)) ->
  inv (S n) (mkc m op ctr reg (at_win (c_files c) (w_id w) (use t)) (c_next c) (c_wsize c) (c_limit c) (c_flimit c) ((cu, w_id w) :: c_curs c)).
Proof.
  intros [J1 J2 J3 J4 J5 J6 J7 J8 J9] Hn Hw Hc. assert (US : forall v, same v (use t v)) by apply use_same. split; cbn; auto.
  - unfold allw in *; cbn. fold (allf (at_win (c_files c) (w_id w) (use t))). rewrite allf_at, upd_ids; [exact J1|exact US].
  - unfold allw; cbn. fold (allf (at_win (c_files c) (w_id w) (use t))). intros u. rewrite allf_at. intros H. apply in_map_iff in H. destruct H as (v & <- & Hv). destruct (upd_same (w_id w) (use t) v US) as (-> & _). now apply J2.
  - unfold allw; cbn. fold (allf (at_win (c_files c) (w_id w) (use t))). intros u. rewrite allf_at. intros H. apply in_map_iff in H. destruct H as (v & <- & Hv). destruct (upd_same (w_id w) (use t) v US) as (-> & _).
    pose proof (J3 v Hv) as E. unfold upd, cnt in *. cbn [filter snd]. rewrite (Nat.eqb_sym (w_id w)). pose proof (cnt_le (c_curs c) (w_id v)) as L. unfold cnt in L. destruct (w_id v =? w_id w)%nat; [|exact E].
    cbn [use w_inuse length]. rewrite E. unfold u64. rewrite Z.mod_small; lia.
  - now constructor.
  - intros cu' id' H. assert (exists v, In v (allw c) /\ w_id v = id') as (v & Hv & Hi).
    { destruct H as [H|H]; [injection H as <- <-; eauto|eauto]. }
    exists (upd (w_id w) (use t) v). split.
    + unfold allw; cbn. fold (allf (at_win (c_files c) (w_id w) (use t))). rewrite allf_at. now apply in_map.
    + destruct (upd_same (w_id w) (use t) v US) as (-> & _). exact Hi.
  - intros f x u. rewrite at_nth. intros H Hu. destruct (nth_error (c_files c) f) as [y|] eqn:Hy; [|discriminate]. cbn in H. injection H as <-. cbn [f_wins f_size] in *. apply in_map_iff in Hu. destruct Hu as (v & <- & Hv).
    destruct (upd_same (w_id w) (use t) v US) as (_ & -> & ->). eauto.
  - intros f x. rewrite at_nth. intros H. destruct (nth_error (c_files c) f) as [y|] eqn:Hy; [|discriminate]. cbn in H. injection H as <-. cbn. eauto.
  - lia.
Qed.
Lemma inv_add n c f x w : inv n c -> nth_error (c_files c) f = Some x -> w_id w = c_next c -> w_inuse w = 0 -> 0 <= w_off w -> 0 < w_len w -> w_off w + w_len w <= f_size x -> forall m op ctr reg,
  inv n (mkc m op ctr reg (set_wins (c_files c) f (fun ws => w :: ws)) (S (c_next c)) (c_wsize c) (c_limit c) (c_flimit c) (c_curs c)).
Proof.
  intros [J1 J2 J3 J4 J5 J6 J7 J8 J9] Hx Hi Hu B1 B2 B3 m op ctr reg. destruct (set_wins_split _ _ _ Hx) as (a & b & E & G). specialize (G (fun ws => w :: ws)). cbv beta in G.
  assert (P : Permutation (allf (set_wins (c_files c) f (fun ws => w :: ws))) (w :: allf (c_files c))).
  { rewrite E, G. cbn [app]. symmetry. apply Permutation_middle. }
  assert (In_ : forall v, In v (allf (set_wins (c_files c) f (fun ws => w :: ws))) -> v = w \/ In v (allf (c_files c))).
  { intros v H. apply (Permutation_in _ P) in H. destruct H; auto. }
  split; cbn; auto.
  - unfold allw; cbn. fold (allf (set_wins (c_files c) f (fun ws => w :: ws))). apply (Permutation_NoDup (Permutation_map w_id (Permutation_sym P))). cbn. constructor; [|exact J1].
    intros H. apply in_map_iff in H. destruct H as (v & Ev & Hv). specialize (J2 v Hv). lia.
  - intros v H. apply In_ in H. destruct H as [->|H]; [lia|]. specialize (J2 v H). lia.
  - intros v H. apply In_ in H. destruct H as [->|H]; [|now apply J3]. rewrite Hu. fold (cnt (c_curs c) (w_id w)). destruct (cnt (c_curs c) (w_id w)) as [|k] eqn:Ec; [reflexivity|]. exfalso.
    destruct (cnt_pos_inv (c_curs c) (w_id w) ltac:(lia)) as (cu & Hc). destruct (J5 _ _ Hc) as (v & Hv & Ev). specialize (J2 v Hv). lia.
  - intros cu id H. destruct (J5 _ _ H) as (v & Hv & Ev). exists v. split; [|exact Ev]. apply (Permutation_in _ (Permutation_sym P)). now right.
  - intros g y v. unfold set_wins. rewrite set_nth_error. destruct (g =? f)%nat eqn:Eg; [|apply J6]. rewrite Hx. cbn. intros H. injection H as <-. cbn. intros [<-|H]; [auto|]. eauto.
  - intros g y. unfold set_wins. rewrite set_nth_error. destruct (g =? f)%nat eqn:Eg; [|apply J8]. rewrite Hx. cbn. intros H. injection H as <-. cbn. eauto.
Qed.
Lemma kept_add c c' f w i : c_files c' = set_wins (c_files c) f (fun ws => w :: ws) -> kept c c' i.
Proof.
  intros E g v (x & Hx & Hv) _. exists v. split; [|apply same_refl]. unfold mapped. rewrite E. unfold set_wins. rewrite set_nth_error. destruct (g =? f)%nat eqn:Eg.
  - apply Nat.eqb_eq in Eg. subst g. rewrite Hx. cbn. eexists. split; [reflexivity|]. cbn. now right.
  - eauto.
Qed.

(** *** A new window *)
Definition limited (c : ctl) : Prop := c_mapped c <= c_limit c \/ forall f x w, In f (c_reg c) -> nth_error (c_files c) f = Some x -> In w (f_wins x) -> w_inuse w <> 0.
Lemma new_window_ok c x offset mm : 2 <= c_wsize c < 2 ^ 63 -> 0 <= offset < f_size x -> exists len c1,
  shrunk (with_mapped c (u64 (c_mapped c + len))) c1 /\ c_reg c1 = c_reg c /\
  ((new_window c (f_size x) offset mm = Ok (None, c1) /\ mm = (false, false)) \/
   (exists off, new_window c (f_size x) offset mm = Ok (Some (mkwin (c_next c1) off len 0 0), mkc (c_mapped c1) (c_open c1 + 1) (c_ctr c1) (c_reg c1) (c_files c1) (S (c_next c1)) (c_wsize c1) (c_limit c1) (c_flimit c1) (c_curs c1)) /\
      mm <> (false, false) /\ limited c1 /\ 0 <= off <= offset /\ offset < off + len <= f_size x /\ len <= c_wsize c /\ (forall extra, 0 <= extra <= c_wsize c / 2 -> offset + extra <= f_size x -> offset + extra <= off + len))).
Proof.
  intros Hw Ho. unfold new_window. set (ws := c_wsize c) in *.
  assert (W : 1 <= ws / 2 /\ 2 * (ws / 2) <= ws) by (Z.to_euclidean_division_equations; lia).
  destruct (ws / 2 =? 0) eqn:E0; [apply Z.eqb_eq in E0; lia|]. clear E0. set (off := offset / (ws / 2) * (ws / 2)).
  assert (Bo : 0 <= off <= offset /\ offset < off + ws / 2).
  { pose proof (Z.div_mod offset (ws / 2) ltac:(lia)) as D. pose proof (Z.mod_pos_bound offset (ws / 2) ltac:(lia)) as M. pose proof (Z.div_pos offset (ws / 2) ltac:(lia) ltac:(lia)) as Q. unfold off. nia. }
  set (len := if ws <? f_size x - off then ws else f_size x - off).
  assert (Bl : offset < off + len <= f_size x /\ len <= ws /\ (forall extra, 0 <= extra <= ws / 2 -> offset + extra <= f_size x -> offset + extra <= off + len)).
  { unfold len. destruct (ws <? f_size x - off) eqn:El; [apply Z.ltb_lt in El|apply Z.ltb_ge in El]; repeat split; intros; lia. }
  set (c0 := with_mapped c (u64 (c_mapped c + len))). change (windows c) with (windows c0).
  destruct (close_while_ok (S (windows c0)) false c0 ltac:(lia)) as (c1 & E1 & S1 & R1 & L1). rewrite E1. cbn [bindr]. exists len.
  destruct mm as [m1 m2]. destruct m1; cbn [fst snd bindr].
  - exists c1. split; [exact S1|]. split; [exact R1|]. right. exists off. split; [reflexivity|]. split; [discriminate|]. split; [destruct L1 as [[_ L1]|L1]; [now left|now right]|]. split; [lia|]. exact Bl.
  - destruct (close_while_ok (S (windows c1)) true c1 ltac:(lia)) as (c2 & E2 & S2 & R2 & L2). rewrite E2. cbn [bindr]. exists c2.
    split; [eapply shrunk_trans; eauto|]. split; [rewrite R2; exact R1|]. destruct m2.
    + right. exists off. split; [reflexivity|]. split; [discriminate|]. split; [destruct L2 as [[L2 _]|L2]; [discriminate|now right]|]. split; [lia|]. exact Bl.
    + left. auto.
Qed.

(** *** Opening *)
Lemma inv_mono n c : inv n c -> inv (S n) c.
Proof. intros [J1 J2 J3 J4 J5 J6 J7 J8 J9]. split; auto. Qed.
Lemma contains_spec w o e : contains w o e = true <-> w_off w <= o /\ o + e <= w_off w + w_len w.
Proof. unfold contains. rewrite andb_true_iff, !Z.leb_le. reflexivity. Qed.
(** What an address that was handed out is worth. *)
Definition good (c : ctl) (f cu : nat) (offset extra : Z) (a : nat * Z * Z) : Prop :=
  let '(id, d, l) := a in
  exists x w, nth_error (c_files c) f = Some x /\ In w (f_wins x) /\ w_id w = id /\ w_off w + d = offset /\ 0 <= d < w_len w /\ w_off w + w_len w <= f_size x /\ l = (w_len w - d) mod 2 ^ 32 /\ holds c cu id /\
    (extra <= c_wsize c / 2 -> offset + extra <= f_size x -> d + extra <= w_len w).
Lemma good_use c f cu offset w c' t extra x : nth_error (c_files c) f = Some x -> In w (f_wins x) -> w_off w <= offset < w_off w + w_len w -> w_off w + w_len w <= f_size x ->
  (extra <= c_wsize c / 2 -> offset + extra <= f_size x -> offset + extra <= w_off w + w_len w) -> c_wsize c' = c_wsize c ->
  c_files c' = at_win (c_files c) (w_id w) (use t) -> c_curs c' = (cu, w_id w) :: drop_cursor (c_curs c) cu -> good c' f cu offset extra (answer w offset).
Proof.
  intros Hx Hw Ho Hb Hfit Ews Ef Ec. exists (mkf (f_size x) (map (upd (w_id w) (use t)) (f_wins x))), (upd (w_id w) (use t) w). destruct (upd_same (w_id w) (use t) w (use_same t)) as (E1 & E2 & E3). rewrite E1, E2, E3, Ews. cbn [f_size f_wins].
  split; [rewrite Ef, at_nth, Hx; reflexivity|]. split; [now apply in_map|]. split; [reflexivity|]. split; [lia|]. split; [lia|]. split; [exact Hb|]. split; [reflexivity|]. split; [unfold holds; rewrite Ec; now left|].
  intros A B. specialize (Hfit A B). lia.
Qed.
Lemma total_at c c' id g : (forall v, same v (g v)) -> c_files c' = at_win (c_files c) id g -> total c' = total c /\ number c' = number c.
Proof.
  intros Hg E. unfold total, number. rewrite E. fold (allf (at_win (c_files c) id g)) (allf (c_files c)). rewrite allf_at, map_length. split; [|reflexivity]. rewrite map_map. f_equal. apply map_ext. intros w. now apply (upd_same id g w).
Qed.
Lemma total_add c c' f x w : nth_error (c_files c) f = Some x -> c_files c' = set_wins (c_files c) f (fun ws => w :: ws) -> total c' = total c + w_len w /\ number c' = number c + 1.
Proof.
  intros Hx E. unfold total, number. rewrite E. fold (allf (set_wins (c_files c) f (fun ws => w :: ws))) (allf (c_files c)). destruct (set_wins_split _ _ _ Hx) as (a & b & E1 & G). rewrite E1, (G (fun ws => w :: ws)).
  assert (St : forall u v, fold_right Z.add 0 (map w_len (u ++ v)) = fold_right Z.add 0 (map w_len u) + fold_right Z.add 0 (map w_len v)).
  { intros u v. induction u as [|z u IH]; cbn; [reflexivity|]. rewrite IH. lia. }
  rewrite !St, !app_length. cbn [map fold_right length app]. lia.
Qed.
Definition drift (c : ctl) : Z * Z := ((c_mapped c - total c) mod 2 ^ 64, c_open c - number c).

(** The part of git_mwindow_open after giving up the old window. *)
Definition open_rest (c : ctl) (f cu : nat) (offset extra : Z) (mm : bool * bool) : res (option (nat * Z * Z) * ctl) :=
      do p <- (match find (fun w => contains w offset extra) (wins_of c f) with
               | Some w => Ok (Some w, c)
               | None =>
                   do p <- new_window c (size_of c f) offset mm ;;
                   match p with
                   | (Some w, c) => Ok (Some w, with_files c (set_wins (c_files c) f (fun ws => w :: ws)))
                   | (None, c) => Ok (None, c)
                   end
               end) ;;
      match p with
      | (None, c) => Ok (None, c)
      | (Some w, c) =>
          Ok (Some (answer w offset),
              mkc (c_mapped c) (c_open c) (u64 (c_ctr c + 1)) (c_reg c) (at_win (c_files c) (w_id w) (use (c_ctr c))) (c_next c) (c_wsize c) (c_limit c) (c_flimit c)
                  ((cu, w_id w) :: drop_cursor (c_curs c) cu))
      end.
Lemma open_rest_ok n c f cu offset extra mm x : inv n (with_curs c (drop_cursor (c_curs c) cu)) -> Z.of_nat (S n) < 2 ^ 64 ->
  nth_error (c_files c) f = Some x -> 0 <= offset < f_size x -> 0 < extra -> exists a c', open_rest c f cu offset extra mm = Ok (a, c') /\
  (forall cu' id, cu' <> cu -> In (cu', id) (c_curs c) -> kept c c' id) /\ (mm = (true, true) -> drift c' = drift c) /\
  (c_next c' <> c_next c -> limited c') /\
  match a with
  | None => mm = (false, false) /\ inv n (with_curs c' (drop_cursor (c_curs c') cu)) /\ c_curs c' = c_curs c
  | Some r => inv (S n) c' /\ good c' f cu offset extra r /\ c_curs c' = (cu, fst (fst r)) :: drop_cursor (c_curs c) cu
  end.
Proof.
  intros J Hn Hx Ho He. pose proof (i_wsize _ _ J) as Hws. cbn in Hws.
  assert (NC : ~ In cu (map fst (drop_cursor (c_curs c) cu))).
  { intros H. apply in_map_iff in H. destruct H as (p & E & H). apply drop_in in H. tauto. }
  unfold open_rest. destruct (find (fun v => contains v offset extra) (wins_of c f)) as [v|] eqn:Ef.
  - cbn [bindr]. apply find_some in Ef. destruct Ef as [Hv Ev]. rewrite (wins_of_nth _ _ _ Hx) in Hv. apply contains_spec in Ev.
    eexists _, _. split; [reflexivity|]. split; [|split; [|split; [|split; [|split]]]].
    + intros cu' i Hne H. eapply kept_at; [apply (use_same (c_ctr c))|reflexivity].
    + intros _. unfold drift. cbn [c_mapped c_open].
      match goal with |- context [total ?s] => destruct (total_at c s (w_id v) (use (c_ctr c)) (use_same _) eq_refl) as [-> ->] end. reflexivity.
    + cbn. congruence.
    + apply (inv_use n (with_curs c (drop_cursor (c_curs c) cu)) cu v (c_ctr c) (c_mapped c) (c_open c) (u64 (c_ctr c + 1)) (c_reg c)); auto. apply in_allf. eauto.
    + apply (good_use c f cu offset v _ (c_ctr c) extra x); auto; try lia. apply (i_bound _ _ J f x v); auto.
    + reflexivity.
  - assert (Es1 : size_of c f = f_size x) by (unfold size_of; now rewrite Hx). rewrite Es1.
    destruct (new_window_ok c x offset mm Hws Ho) as (len & c2 & S2 & R2 & N2).
    set (c0 := with_mapped c (u64 (c_mapped c + len))) in *.
    pose proof (s_curs _ _ S2) as Ecurs. cbn [c0 with_mapped c_curs] in Ecurs.
    assert (J2 : inv n (with_curs c2 (drop_cursor (c_curs c) cu))).
    { eapply shrunk_inv; [|apply shrunk_curs; exact S2]. apply (inv_mapped n (with_curs c (drop_cursor (c_curs c) cu))). exact J. }
    assert (K2 : forall cu' id, cu' <> cu -> In (cu', id) (c_curs c) -> kept c c2 id).
    { intros cu' id Hne H. assert (K : kept (with_curs c0 (drop_cursor (c_curs c) cu)) (with_curs c2 (drop_cursor (c_curs c) cu)) id).
      { apply (kept_shrunk n _ _ cu'); [apply (inv_mapped n (with_curs c (drop_cursor (c_curs c) cu))); exact J|now apply shrunk_curs|]. apply drop_in. auto. }
      exact K. }
    destruct N2 as [(E & Emm)|(off & E & Emm & L2 & Bo & Bl & Bw & Bf)]; rewrite E; cbn [bindr].
    + exists None, c2. split; [reflexivity|]. split; [exact K2|]. split; [intros ->; discriminate|]. split; [intros H; exfalso; apply H; exact (s_next _ _ S2)|]. split; [exact Emm|]. rewrite Ecurs. auto.
    + destruct (nth_error (c_files c2) f) as [x2|] eqn:Hx2.
      2: { exfalso. apply nth_error_None in Hx2. assert (f < length (c_files c))%nat by (apply nth_error_Some; congruence). pose proof (s_len _ _ S2) as SL. cbn in SL. lia. }
      destruct (s_file _ _ S2 _ _ Hx2) as (y & Hy & Ey & _). assert (y = x) by (cbn in Hy; congruence). subst y.
      set (w := mkwin (c_next c2) off len 0 0) in *.
      set (c3 := mkc (c_mapped c2) (c_open c2 + 1) (c_ctr c2) (c_reg c2) (c_files c2) (S (c_next c2)) (c_wsize c2) (c_limit c2) (c_flimit c2) (c_curs c2)).
      set (c4 := with_files c3 (set_wins (c_files c3) f (fun ws => w :: ws))).
      pose proof (s_set _ _ S2) as (W1 & W2 & W3 & W4). cbn in W1, W2, W3, W4.
      assert (J4 : inv n (with_curs c4 (drop_cursor (c_curs c) cu))).
      { apply (inv_add n (with_curs c2 (drop_cursor (c_curs c) cu)) f x2 w J2 Hx2); cbn; try reflexivity; lia. }
      assert (Hx4 : nth_error (c_files c4) f = Some (mkf (f_size x2) (w :: f_wins x2))).
      { unfold c4. cbn. unfold set_wins. rewrite set_nth_error, Nat.eqb_refl, Hx2. reflexivity. }
      eexists _, _. split; [reflexivity|]. split; [|split; [|split; [|split; [|split]]]].
      * intros cu' i Hne H. eapply kept_trans; [eapply K2; eauto|]. eapply kept_trans; [apply (kept_add c2 c4 f w); reflexivity|]. eapply kept_at; [apply (use_same (c_ctr c4))|reflexivity].
      * intros _. unfold drift. 
        match goal with |- context [total ?s] => destruct (total_at c4 s (w_id w) (use (c_ctr c4)) (use_same _) eq_refl) as [-> ->] end. cbn [c_mapped c_open].
        destruct (total_add c2 c4 f x2 w Hx2 eq_refl) as [-> ->]. pose proof (s_total _ _ S2) as T2. pose proof (s_number _ _ S2) as T3.
        change (total c0) with (total c) in T2. change (number c0) with (number c) in T3. cbn [c0 with_mapped c_mapped c_open] in T2, T3. cbn [c4 c3 with_files c_mapped c_open w w_len].
        f_equal; [|lia]. unfold u64 in T2. rewrite Zminus_mod_idemp_l in T2.
        replace (c_mapped c2 - (total c2 + len)) with ((c_mapped c2 - total c2) - len) by lia. rewrite <- Zminus_mod_idemp_l, T2, Zminus_mod_idemp_l. f_equal. lia.
      * intros _. destruct L2 as [L2|L2]; [left; exact L2|right]. cbn [c_reg c_files]. intros g y v Hg. rewrite at_nth. cbn [c4 c3 with_files c_files]. unfold set_wins. rewrite set_nth_error. intros Hgy Hv.
        assert (Hd : exists u y0, nth_error (c_files c2) g = Some y0 /\ v = upd (w_id w) (use (c_ctr c4)) u /\ (u = w \/ In u (f_wins y0))).
        { destruct (g =? f)%nat eqn:Eg.
          - apply Nat.eqb_eq in Eg. subst g. rewrite Hx2 in Hgy. cbn in Hgy. injection Hgy as <-. cbn [f_wins] in Hv. change (In v (map (upd (w_id w) (use (c_ctr c4))) (w :: f_wins x2))) in Hv. apply in_map_iff in Hv. destruct Hv as (u & <- & Hu).
            exists u, x2. split; [exact Hx2|]. split; [reflexivity|]. destruct Hu as [<-|Hu]; auto.
          - destruct (nth_error (c_files c2) g) as [y0|] eqn:Hg0; [|discriminate]. cbn in Hgy. injection Hgy as <-. cbn [f_wins] in Hv. apply in_map_iff in Hv. destruct Hv as (u & <- & Hu). exists u, y0. auto. }
        destruct Hd as (u & y0 & Hy0 & -> & Hu). destruct Hu as [->|Hu].
        -- unfold upd. rewrite Nat.eqb_refl. cbn. discriminate.
        -- unfold upd. destruct (w_id u =? w_id w)%nat eqn:Eu.
           ++ exfalso. apply Nat.eqb_eq in Eu. assert (In u (allw (with_curs c2 (drop_cursor (c_curs c) cu)))) as Hin by (apply in_allf; eauto). pose proof (i_next _ _ J2 u Hin) as HN. cbn in HN, Eu. lia.
           ++ apply (L2 g y0 u Hg Hy0 Hu).
      * pose proof (inv_use n (with_curs c4 (drop_cursor (c_curs c) cu)) cu w (c_ctr c4) (c_mapped c4) (c_open c4) (u64 (c_ctr c4 + 1)) (c_reg c4)) as U. cbn [c_curs c_files with_curs] in U. rewrite <- Ecurs in U. cbn [c_curs c4 c3 with_files]. apply U; auto; [rewrite Ecurs; exact J4| |rewrite Ecurs; exact NC]. apply in_allf. eexists _, _. split; [exact Hx4|]. now left.
      * apply (good_use c4 f cu offset w _ (c_ctr c4) extra (mkf (f_size x2) (w :: f_wins x2))); auto.
        -- now left.
        -- cbn. lia.
        -- cbn. rewrite Ey. lia.
        -- cbn. rewrite Ey, W1. intros A B. apply Bf; lia.
      * cbn. now rewrite Ecurs.
Qed.
