From Coq Require Import Permutation.
From Verif Require Import Base ShortenProofs MwinModel MwinSpec.

Definition allw (c : ctl) : list win := concat (map f_wins (c_files c)).
Definition cnt (l : list (nat * nat)) (id : nat) : nat := length (filter (fun p => (snd p =? id)%nat) l).
Record inv (n : nat) (c : ctl) : Prop := mkinv {
  i_nodup : NoDup (map w_id (allw c));
  i_next : forall w, In w (allw c) -> (w_id w < c_next c)%nat;
  i_cnt : forall w, In w (allw c) -> w_inuse w = Z.of_nat (cnt (c_curs c) (w_id w));
  i_keys : NoDup (map fst (c_curs c));
  i_live : forall cu id, In (cu, id) (c_curs c) -> exists w, In w (allw c) /\ w_id w = id;
  i_bound : forall f x w, nth_error (c_files c) f = Some x -> In w (f_wins x) -> 0 <= w_off w /\ 0 < w_len w /\ w_off w + w_len w <= f_size x;
  i_wsize : 2 <= c_wsize c < 2 ^ 63;
  i_size : forall f x, nth_error (c_files c) f = Some x -> 0 <= f_size x < 2 ^ 63;
  i_few : (length (c_curs c) <= n)%nat }.

Lemma set_nth_split A (l : list A) n x : nth_error l n = Some x -> exists a b, l = a ++ x :: b /\ forall g, set_nth l n g = a ++ g x :: b.
Proof.
  revert n. induction l as [|y l IH]; intros [|n] H; cbn in H; try discriminate.
  - injection H as ->. exists [], l. split; reflexivity.
  - destruct (IH n H) as (a & b & E & G). exists (y :: a), b. split.
    + now rewrite E.
    + intros g. cbn. now rewrite G.
Qed.
Lemma set_nth_error A (l : list A) n g m : nth_error (set_nth l n g) m = if (m =? n)%nat then option_map g (nth_error l n) else nth_error l m.
Proof.
  revert n m. induction l as [|y l IH]; intros n m.
  - cbn. destruct m, n; cbn; try reflexivity. all: destruct (_ =? _)%nat; reflexivity.
  - destruct n, m; cbn; try reflexivity. rewrite IH. reflexivity.
Qed.
Lemma set_nth_len A (l : list A) n g : length (set_nth l n g) = length l.
Proof. revert n. induction l as [|y l IH]; intros [|n]; cbn; congruence. Qed.
Lemma set_nth_none A (l : list A) n g : nth_error l n = None -> set_nth l n g = l.
Proof. revert n. induction l as [|y l IH]; intros [|n] H; cbn in *; try reflexivity; try discriminate. now rewrite IH. Qed.

Definition allf (fs : list mfile) : list win := concat (map f_wins fs).
Lemma set_wins_split fs f x : nth_error fs f = Some x -> exists a b, allf fs = a ++ f_wins x ++ b /\ forall g, allf (set_wins fs f g) = a ++ g (f_wins x) ++ b.
Proof.
  intros H. destruct (set_nth_split _ _ _ _ H) as (a & b & E & G). exists (allf a), (allf b).
  assert (S1 : forall u v, allf (u ++ v) = allf u ++ allf v) by (intros u v; unfold allf; now rewrite map_app, concat_app).
  split.
  - rewrite E, S1. reflexivity.
  - intros g. unfold set_wins. rewrite (G (fun x => mkf (f_size x) (g (f_wins x)))), S1. reflexivity.
Qed.
Lemma wins_of_nth c f x : nth_error (c_files c) f = Some x -> wins_of c f = f_wins x.
Proof. intros H. unfold wins_of. now rewrite H. Qed.
Lemma in_allf fs w : In w (allf fs) <-> exists f x, nth_error fs f = Some x /\ In w (f_wins x).
Proof.
  unfold allf. rewrite in_concat. split.
  - intros (l & Hl & Hw). apply in_map_iff in Hl. destruct Hl as (x & <- & Hx). apply In_nth_error in Hx. destruct Hx as (f & Hf). exists f, x. auto.
  - intros (f & x & H & Hw). exists (f_wins x). split; [|exact Hw]. apply in_map, (nth_error_In _ _ H).
Qed.

(** The windows that were dropped are unused. *)
Record shrunk (c c' : ctl) : Prop := mkshrunk {
  s_curs : c_curs c' = c_curs c;
  s_next : c_next c' = c_next c;
  s_set : c_wsize c' = c_wsize c /\ c_limit c' = c_limit c /\ c_flimit c' = c_flimit c /\ c_ctr c' = c_ctr c;
  s_reg : forall f, In f (c_reg c') -> In f (c_reg c);
  s_len : length (c_files c') = length (c_files c);
  s_file : forall f x', nth_error (c_files c') f = Some x' -> exists x, nth_error (c_files c) f = Some x /\ f_size x' = f_size x /\ incl (f_wins x') (f_wins x) /\
     (forall w, In w (f_wins x) -> w_inuse w <> 0 -> In w (f_wins x'));
  s_nodup : NoDup (map w_id (allw c)) -> NoDup (map w_id (allw c'));
  s_total : (c_mapped c' - total c') mod 2 ^ 64 = (c_mapped c - total c) mod 2 ^ 64;
  s_number : c_open c' - number c' = c_open c - number c }.
Lemma shrunk_refl c : shrunk c c.
Proof. split; auto. intros f x' H. exists x'. split; [exact H|]. split; [reflexivity|]. split; [apply incl_refl|auto]. Qed.
Lemma shrunk_trans a b c : shrunk a b -> shrunk b c -> shrunk a c.
Proof.
  intros [A1 A2 (A3 & A4 & A5 & A5') A6 A7 A8 A9 A10 A11] [B1 B2 (B3 & B4 & B5 & B5') B6 B7 B8 B9 B10 B11].
  split; try congruence; auto.
  - repeat split; congruence.
  - intros f x2 H2. destruct (B8 _ _ H2) as (x1 & H1 & S1 & I1 & K1). destruct (A8 _ _ H1) as (x0 & H0 & S0 & I0 & K0).
    exists x0. split; [exact H0|]. split; [congruence|]. split; [eapply incl_tran; eauto|]. intros w Hw Hu. apply K1; [|exact Hu]. now apply K0.
Qed.
Lemma shrunk_in c c' w : shrunk c c' -> In w (allw c') -> In w (allw c).
Proof. intros S H. apply in_allf in H. destruct H as (f & x & Hf & Hw). destruct (s_file _ _ S _ _ Hf) as (y & Hy & _ & I & _). apply in_allf. exists f, y. split; [exact Hy|]. now apply I. Qed.
Lemma shrunk_keep c c' w : shrunk c c' -> In w (allw c) -> w_inuse w <> 0 -> In w (allw c').
Proof.
  intros S H Hu. apply in_allf in H. destruct H as (f & x & Hf & Hw).
  destruct (nth_error (c_files c') f) as [y|] eqn:Hy.
  - destruct (s_file _ _ S _ _ Hy) as (x1 & Hx1 & _ & _ & K). assert (x1 = x) by congruence. subst x1. apply in_allf. exists f, y. split; [exact Hy|]. now apply K.
  - apply nth_error_None in Hy. assert (f < length (c_files c))%nat by (apply nth_error_Some; congruence). rewrite (s_len _ _ S) in Hy. lia.
Qed.
Lemma cnt_pos l cu id : In (cu, id) l -> (0 < cnt l id)%nat.
Proof.
  intros H. unfold cnt. assert (In (cu, id) (filter (fun p => (snd p =? id)%nat) l)) by (apply filter_In; split; [exact H|cbn; apply Nat.eqb_refl]).
  destruct (filter _ l); [contradiction|cbn; lia].
Qed.
Lemma cnt_pos_inv l id : (0 < cnt l id)%nat -> exists cu, In (cu, id) l.
Proof.
  unfold cnt. intros H. destruct (filter _ l) as [|[cu i] r] eqn:E; [cbn in H; lia|]. exists cu.
  assert (In (cu, i) (filter (fun p => (snd p =? id)%nat) l)) as H1 by (rewrite E; now left). apply filter_In in H1. destruct H1 as [H1 H2]. cbn in H2. apply Nat.eqb_eq in H2. now subst.
Qed.
Lemma shrunk_inv n c c' : inv n c -> shrunk c c' -> inv n c'.
Proof.
  intros [J1 J2 J3 J4 J5 J6 J7 J8 J9] S. pose proof S as [A1 A2 (A3 & _) A6 A7 A8 A9 _ _]. split; rewrite ?A1, ?A2, ?A3; auto.
  - intros w H. apply J2. eapply shrunk_in; eauto.
  - intros w H. apply J3. eapply shrunk_in; eauto.
  - intros cu id H. destruct (J5 _ _ H) as (w & Hw & Hi). exists w. split; [|exact Hi]. apply (shrunk_keep _ _ _ S Hw). rewrite (J3 _ Hw), Hi. apply cnt_pos in H. lia.
  - intros f x w Hf Hw. destruct (A8 _ _ Hf) as (y & Hy & Es & I & _). rewrite Es. apply (J6 f y w Hy). now apply I.
  - intros f x Hf. destruct (A8 _ _ Hf) as (y & Hy & Es & _). rewrite Es. eauto.
Qed.

Lemma NoDup_tail A (a b : list A) : NoDup (a ++ b) -> NoDup b.
Proof. induction a as [|x a IH]; intros H; [exact H|]. inversion H; auto. Qed.
(** Dropping windows of one file. *)
Lemma shrunk_one c f x l1 l2 d reg m op : nth_error (c_files c) f = Some x -> (forall w, In w d -> w_inuse w = 0) -> f_wins x = l1 ++ d ++ l2 ->
  (forall g, In g reg -> In g (c_reg c)) -> m = u64 (c_mapped c - fold_right Z.add 0 (map w_len d)) -> op = c_open c - Z.of_nat (length d) ->
  shrunk c (mkc m op (c_ctr c) reg (set_wins (c_files c) f (fun _ => l1 ++ l2)) (c_next c) (c_wsize c) (c_limit c) (c_flimit c) (c_curs c)).
Proof.
  intros Hf Hd Ex Hr -> ->. destruct (set_wins_split _ _ _ Hf) as (a & b & E & G). specialize (G (fun _ => l1 ++ l2)). cbv beta in G.
  assert (St : forall u v, fold_right Z.add 0 (map w_len (u ++ v)) = fold_right Z.add 0 (map w_len u) + fold_right Z.add 0 (map w_len v)).
  { intros u v. induction u as [|z u IH]; cbn; [reflexivity|]. rewrite IH. lia. }
  split; cbn; auto.
  - unfold set_wins. now rewrite set_nth_len.
  - intros f' x' H. unfold set_wins in H. rewrite set_nth_error in H. destruct (f' =? f)%nat eqn:Ef.
    + apply Nat.eqb_eq in Ef. subst f'. rewrite Hf in H. cbn in H. injection H as <-. exists x. split; [exact Hf|]. split; [reflexivity|]. cbn [f_wins]. rewrite Ex. split.
      * intros w Hw. apply in_app_or in Hw. apply in_or_app. destruct Hw; [now left|right; apply in_or_app; now right].
      * intros w Hw Hu. apply in_app_or in Hw. apply in_or_app. destruct Hw as [|Hw]; [now left|]. apply in_app_or in Hw. destruct Hw as [Hw|Hw]; [|now right]. now apply Hd in Hw.
    + exists x'. split; [exact H|]. split; [reflexivity|]. split; [apply incl_refl|auto].
  - unfold allw; cbn. fold (allf (c_files c)). fold (allf (set_wins (c_files c) f (fun _ => l1 ++ l2))). rewrite E, G, Ex. rewrite !map_app, <- !app_assoc. intros ND.
    apply (NoDup_tail _ (map w_id d)).
    revert ND. generalize (map w_id a) (map w_id b) (map w_id l1) (map w_id l2) (map w_id d). clear. intros a b l1 l2 d ND.
    assert (Permutation (a ++ l1 ++ d ++ l2 ++ b) (d ++ a ++ l1 ++ l2 ++ b)).
    { rewrite !(app_assoc a l1). apply Permutation_app_swap_app. }
    eapply Permutation_NoDup; eauto.
  - unfold total; cbn. fold (allf (c_files c)). fold (allf (set_wins (c_files c) f (fun _ => l1 ++ l2))). rewrite E, G, Ex, !St. unfold u64. rewrite Zminus_mod_idemp_l. f_equal. lia.
  - unfold number; cbn. fold (allf (c_files c)). fold (allf (set_wins (c_files c) f (fun _ => l1 ++ l2))). rewrite E, G, Ex, !app_length. lia.
Qed.

(** *** Closing windows *)
Definition vcand (c : ctl) (out : option (nat * nat * Z)) : Prop :=
  match out with None => True | Some (f, k, _) => exists x w, In f (c_reg c) /\ nth_error (c_files c) f = Some x /\ nth_error (f_wins x) k = Some w /\ w_inuse w = 0 end.
Lemma scan_from_valid c ou sign f x ws : In f (c_reg c) -> nth_error (c_files c) f = Some x -> forall k out found,
  (forall i w, nth_error ws i = Some w -> nth_error (f_wins x) (k + i) = Some w) -> vcand c out -> vcand c (snd (scan_from ou sign f k ws out found)).
Proof.
  intros Hr Hx. induction ws as [|w ws IH]; intros k out found Hi V; [exact V|]. cbn [scan_from].
  assert (Hi' : forall i w0, nth_error ws i = Some w0 -> nth_error (f_wins x) (S k + i) = Some w0).
  { intros i w0 H. rewrite Nat.add_succ_comm. apply Hi. exact H. }
  destruct (negb (w_inuse w =? 0)) eqn:Eu.
  - destruct ou; [exact V|]. now apply IH.
  - apply negb_false_iff, Z.eqb_eq in Eu.
    match goal with |- context [if ?b then _ else _] => destruct b end.
    + apply IH; [exact Hi'|]. exists x, w. split; [exact Hr|]. split; [exact Hx|]. split; [|exact Eu]. rewrite <- (Nat.add_0_r k). apply Hi. reflexivity.
    + now apply IH.
Qed.
Lemma scan_valid c ou sign f out : In f (c_reg c) -> vcand c out -> vcand c (snd (scan ou sign c f out)).
Proof.
  intros Hr V. unfold scan. destruct (nth_error (c_files c) f) as [x|] eqn:Hx.
  - rewrite (wins_of_nth _ _ _ Hx). pose proof (scan_from_valid c ou sign f x (f_wins x) Hr Hx 0 out false (fun i w H => H) V) as H.
    destruct (scan_from ou sign f 0 (f_wins x) out false) as [[] o]; [exact H|exact V].
  - unfold wins_of. rewrite Hx. exact V.
Qed.
Lemma scan_from_some sign f ws : forall k out found, out <> None -> snd (scan_from false sign f k ws out found) <> None.
Proof.
  induction ws as [|w ws IH]; intros k out found H; [exact H|]. cbn [scan_from]. destruct (negb _); [now apply IH|].
  match goal with |- context [if ?b then _ else _] => destruct b end; apply IH; congruence.
Qed.
Lemma scan_from_found sign f ws : forall k out found, (fst (scan_from false sign f k ws out found) = false -> found = false /\ snd (scan_from false sign f k ws out found) = out).
Proof.
  induction ws as [|w ws IH]; intros k out found H; [auto|]. cbn [scan_from] in *. destruct (negb _); [now apply IH|].
  match type of H with context [if ?b then _ else _] => destruct b end; [|now apply IH]. apply IH in H. destruct H; discriminate.
Qed.
Lemma scan_from_none sign f ws : forall k found, snd (scan_from false sign f k ws None found) = None -> forall w, In w ws -> w_inuse w <> 0.
Proof.
  induction ws as [|w ws IH]; intros k found H v Hv; [contradiction|]. cbn [scan_from] in H. destruct (negb (w_inuse w =? 0)) eqn:Eu.
  - apply negb_true_iff, Z.eqb_neq in Eu. destruct Hv as [<-|Hv]; [exact Eu|]. eapply IH; eauto.
  - exfalso. eapply scan_from_some; [|exact H]. discriminate.
Qed.
Lemma scan_snd sign c f out : snd (scan false sign c f out) = snd (scan_from false sign f 0 (wins_of c f) out false).
Proof.
  unfold scan. pose proof (scan_from_found sign f (wins_of c f) 0 out false) as H. destruct (scan_from _ _ _ _ _ _ _) as [[] o]; [reflexivity|]. cbn in *. now destruct H.
Qed.
Lemma fold_scan_some c l : forall out, out <> None -> fold_left (fun out f => snd (scan false (-1) c f out)) l out <> None.
Proof. induction l as [|f l IH]; intros out H; [exact H|]. cbn [fold_left]. apply IH. rewrite scan_snd. now apply scan_from_some. Qed.
Lemma fold_scan_none c l : fold_left (fun out f => snd (scan false (-1) c f out)) l None = None -> forall f, In f l -> forall w, In w (wins_of c f) -> w_inuse w <> 0.
Proof.
  induction l as [|g l IH]; intros H f Hf w Hw; [contradiction|]. cbn [fold_left] in H.
  destruct (snd (scan false (-1) c g None)) as [o|] eqn:Es; [exfalso; revert H; apply fold_scan_some; discriminate|].
  destruct Hf as [->|Hf]; [|now apply (IH H f)]. rewrite scan_snd in Es. eapply scan_from_none; eauto.
Qed.
Lemma fold_scan_valid c l : (forall f, In f l -> In f (c_reg c)) -> forall out, vcand c out -> vcand c (fold_left (fun out f => snd (scan false (-1) c f out)) l out).
Proof. induction l as [|g l IH]; intros H out V; [exact V|]. cbn [fold_left]. apply IH; [intros; apply H; now right|]. apply scan_valid; [apply H; now left|exact V]. Qed.

Lemma remove_nth_split A (l : list A) k x : nth_error l k = Some x -> exists a b, l = a ++ x :: b /\ remove_nth l k = a ++ b.
Proof.
  revert k. induction l as [|y l IH]; intros [|k] H; cbn in H; try discriminate.
  - injection H as ->. exists [], l. split; reflexivity.
  - destruct (IH k H) as (a & b & E & G). exists (y :: a), b. cbn. split; congruence.
Qed.
Lemma set_wins_const fs f x g : nth_error fs f = Some x -> set_wins fs f g = set_wins fs f (fun _ => g (f_wins x)).
Proof.
  intros H. unfold set_wins. destruct (set_nth_split _ _ _ _ H) as (a & b & E & G).
  rewrite (G (fun x => mkf (f_size x) (g (f_wins x)))). rewrite (G (fun x0 => mkf (f_size x0) ((fun _ => g (f_wins x)) (f_wins x0)))). reflexivity.
Qed.
Lemma close_lru_some c c' : close_lru c = Some c' -> shrunk c c' /\ S (windows c') = windows c /\ c_reg c' = c_reg c.
Proof.
  unfold close_lru. pose proof (fold_scan_valid c (c_reg c) (fun f H => H) None I) as V.
  destruct (fold_left _ (c_reg c) None) as [[[f k] last]|]; [|discriminate]. destruct V as (x & w & Hr & Hx & Hk & Hu).
  rewrite (wins_of_nth _ _ _ Hx), Hk. intros H. apply Some_inj in H. subst c'. destruct (remove_nth_split _ _ _ _ Hk) as (a & b & E & G). split; [|split; [|reflexivity]].
  - rewrite (set_wins_const _ _ x _ Hx), G. eapply shrunk_one with (d := [w]); eauto.
    + intros v [<-|[]]. exact Hu.
    + cbn. f_equal. lia.
  - unfold windows. cbn [c_files]. rewrite (set_wins_const _ _ x _ Hx), G. destruct (set_wins_split _ _ _ Hx) as (u & v & E1 & G1). fold (allf (c_files c)). fold (allf (set_wins (c_files c) f (fun _ => a ++ b))).
    rewrite E1, G1, E, !app_length. cbn [length]. lia.
Qed.
Lemma close_lru_none c : close_lru c = None -> forall f x w, In f (c_reg c) -> nth_error (c_files c) f = Some x -> In w (f_wins x) -> w_inuse w <> 0.
Proof.
  unfold close_lru. pose proof (fold_scan_valid c (c_reg c) (fun f H => H) None I) as V. intros H f x w Hf Hx Hw.
  destruct (fold_left _ (c_reg c) None) as [[[g k] last]|] eqn:Ef.
  - destruct V as (y & v & Hr & Hy & Hk & Hu). rewrite (wins_of_nth _ _ _ Hy), Hk in H. discriminate.
  - apply (fold_scan_none c (c_reg c) Ef f Hf). now rewrite (wins_of_nth _ _ _ Hx).
Qed.
Lemma close_while_ok : forall fuel all c, (windows c < fuel)%nat -> exists c', close_while fuel all c = Ok c' /\ shrunk c c' /\ c_reg c' = c_reg c /\
  ((all = false /\ c_mapped c' <= c_limit c') \/ forall f x w, In f (c_reg c') -> nth_error (c_files c') f = Some x -> In w (f_wins x) -> w_inuse w <> 0).
Proof.
  induction fuel as [|n IH]; intros all c Hn; [lia|]. cbn [close_while]. destruct (all || (c_limit c <? c_mapped c)) eqn:E.
  - destruct (close_lru c) as [c1|] eqn:Ec.
    + destruct (close_lru_some _ _ Ec) as (S1 & W1 & R1). destruct (IH all c1 ltac:(lia)) as (c2 & E2 & S2 & R2 & L2). exists c2. split; [exact E2|]. split; [eapply shrunk_trans; eauto|]. split; [congruence|exact L2].
    + exists c. split; [reflexivity|]. split; [apply shrunk_refl|]. split; [reflexivity|]. right. now apply close_lru_none.
  - apply orb_false_iff in E. destruct E as [-> E]. apply Z.ltb_ge in E. exists c. split; [reflexivity|]. split; [apply shrunk_refl|]. split; [reflexivity|]. left. auto.
Qed.
