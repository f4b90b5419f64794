From Coq Require Import Permutation.
From Verif Require Import Base ShortenProofs ReflogProofs MwinModel MwinSpec MwinProofs MwinMain.

Lemma with_curs_self c : with_curs c (c_curs c) = c.
Proof. destruct c. reflexivity. Qed.
Lemma mopen_rest c f cu offset extra mm : mopen c f cu offset extra mm =
  match cursor c cu with
  | None => open_rest c f cu offset extra mm
  | Some id => match live c id with
               | None => UB
               | Some w => if contains w offset extra then Ok (Some (answer w offset), c) else open_rest (with_files c (at_win (c_files c) (w_id w) dec_use)) f cu offset extra mm
               end
  end.
Proof. unfold mopen, open_rest. destruct (cursor c cu) as [id|]; [destruct (live c id) as [w|]; [|reflexivity]; cbn [bindr]; destruct (contains w offset extra); reflexivity|reflexivity]. Qed.

Lemma mopen_ok n c f cu offset extra mm : inv n c -> Z.of_nat (S n) < 2 ^ 64 -> proper c (MOpen f cu offset extra mm) -> exists a c',
  mopen c f cu offset extra mm = Ok (a, c') /\ inv (S n) c' /\
  (forall cu' id, cu' <> cu -> holds c cu' id -> holds c' cu' id /\ kept c c' id) /\ (mm = (true, true) -> drift c' = drift c) /\
  (c_next c' <> c_next c -> limited c') /\
  match a with
  | None => mm = (false, false) /\ cursor c cu = None
  | Some r => good c' f cu offset extra r
  end.
Proof.
  intros J Hn ((s & (x & Hx & Es) & Ho) & He & _ & Hcur). subst s. pose proof (i_nodup _ _ J) as ND. pose proof (i_keys _ _ J) as NK.
  rewrite mopen_rest. destruct (cursor c cu) as [id|] eqn:Ec.
  - assert (Hin : In (cu, id) (c_curs c)) by now apply cursor_some. destruct (Hcur id Hin) as ((w & Hw & Ei) & Hmm). pose proof (mapped_in _ _ _ Hw) as Hwa. rewrite <- Ei, (live_some c w ND Hwa).
    destruct (contains w offset extra) eqn:Ew.
    + exists (Some (answer w offset)), c. split; [reflexivity|]. split; [now apply inv_mono|]. split; [intros cu' i _ H; split; [exact H|apply kept_refl]|]. split; [reflexivity|]. split; [congruence|].
      apply contains_spec in Ew. destruct Hw as (y & Hy & Hw). assert (y = x) by congruence. subst y. exists x, w. pose proof (i_bound _ _ J f x w Hx Hw). split; [exact Hx|]. split; [exact Hw|]. split; [reflexivity|]. split; [lia|]. split; [lia|]. split; [lia|].
      split; [reflexivity|]. split; [unfold holds; rewrite Ei; exact Hin|]. intros; lia.
    + set (c1 := with_files c (at_win (c_files c) (w_id w) dec_use)).
      assert (J1 : inv n (with_curs c1 (drop_cursor (c_curs c) cu))).
      { unfold with_curs, c1, with_files. cbn. rewrite Ei. apply inv_dec; auto. lia. }
      assert (K1 : forall i, kept c c1 i) by (intros i; eapply kept_at; [apply dec_same|reflexivity]).
      set (x1 := mkf (f_size x) (map (upd (w_id w) dec_use) (f_wins x))).
      assert (Hx1 : nth_error (c_files c1) f = Some x1) by (unfold c1; cbn; rewrite at_nth, Hx; reflexivity).
      destruct (open_rest_ok n c1 f cu offset extra mm x1 J1 Hn Hx1 Ho He) as (a & c' & E & K & D & L & R). exists a, c'. split; [exact E|].
      assert (D0 : drift c1 = drift c) by (unfold drift; destruct (total_at c c1 (w_id w) dec_use dec_same eq_refl) as [-> ->]; reflexivity).
      destruct a as [r|]; [|exfalso; tauto]. destruct R as (R1 & R2 & R3). split; [exact R1|]. split; [|split; [|split; [exact L|exact R2]]].
      * intros cu' i Hne H. split; [unfold holds; rewrite R3; right; apply drop_in; auto|]. eapply kept_trans; [apply K1|]. eapply K; eauto.
      * intros M. rewrite (D M). exact D0.
  - pose proof Ec as Ec'. apply cursor_none in Ec'. assert (Dr : drop_cursor (c_curs c) cu = c_curs c) by now apply drop_none.
    assert (J1 : inv n (with_curs c (drop_cursor (c_curs c) cu))) by (rewrite Dr, with_curs_self; exact J).
    destruct (open_rest_ok n c f cu offset extra mm x J1 Hn Hx Ho He) as (a & c' & E & K & D & L & R). exists a, c'. split; [exact E|]. destruct a as [r|].
    + destruct R as (R1 & R2 & R3). split; [exact R1|]. split; [|auto]. intros cu' i Hne H. split; [unfold holds; rewrite R3; right; apply drop_in; auto|]. eapply K; eauto.
    + destruct R as (R1 & R2 & R3). rewrite R3, Dr in R2. rewrite <- R3, with_curs_self in R2. split; [now apply inv_mono|]. split; [|auto]. intros cu' i Hne H. split; [unfold holds; rewrite R3; exact H|]. eapply K; eauto.
Qed.

(** *** Freeing and closing *)
Lemma free_list_spec ws : let '(len, k, rest, e) := free_list ws in exists d, ws = d ++ rest /\ (forall w, In w d -> w_inuse w = 0) /\ len = fold_right Z.add 0 (map w_len d) /\ k = Z.of_nat (length d) /\
  ((e = 0 /\ rest = []) \/ (e = -1 /\ exists w r, rest = w :: r /\ w_inuse w <> 0)).
Proof.
  induction ws as [|w ws IH]; cbn [free_list].
  - exists []. cbn. split; [reflexivity|]. split; [intros w []|]. split; [reflexivity|]. split; [reflexivity|]. left. auto.
  - destruct (negb (w_inuse w =? 0)) eqn:Eu.
    + apply negb_true_iff, Z.eqb_neq in Eu. exists []. cbn. split; [reflexivity|]. split; [intros v []|]. split; [reflexivity|]. split; [reflexivity|]. right. split; [reflexivity|]. exists w, ws. auto.
    + apply negb_false_iff, Z.eqb_eq in Eu. destruct (free_list ws) as [[[len k] rest] e]. destruct IH as (d & -> & Hd & -> & -> & He). exists (w :: d). split; [reflexivity|]. split; [intros v [<-|Hv]; auto|]. split; [reflexivity|]. split; [cbn [length]; lia|exact He].
Qed.
Lemma remove_first_in l n f : In f (remove_first l n) -> In f l.
Proof. induction l as [|x l IH]; cbn; [auto|]. destruct (x =? n)%nat; [auto|]. intros [H|H]; auto. Qed.
Lemma remove_first_len l n : In n l -> S (length (remove_first l n)) = length l.
Proof. induction l as [|x l IH]; [contradiction|]. cbn. destruct (x =? n)%nat eqn:E; [reflexivity|]. intros [H|H]; [subst; rewrite Nat.eqb_refl in E; discriminate|]. cbn. now rewrite IH. Qed.
Lemma set_wins_none fs f g : nth_error fs f = None -> set_wins fs f g = fs.
Proof. apply set_nth_none. Qed.
Lemma free_all_ok c f : shrunk c (snd (free_all c f)) /\
  ((fst (free_all c f) = 0 /\ wins_of (snd (free_all c f)) f = []) \/ (fst (free_all c f) = -1 /\ exists w, mapped c f w /\ w_inuse w <> 0)).
Proof.
  unfold free_all. pose proof (free_list_spec (wins_of c f)) as S. destruct (free_list (wins_of c f)) as [[[len k] rest] e]. destruct S as (d & Ed & Hd & -> & -> & He). cbn [fst snd].
  destruct (nth_error (c_files c) f) as [x|] eqn:Hx.
  - rewrite (wins_of_nth _ _ _ Hx) in Ed. split.
    + apply (shrunk_one c f x [] rest d); auto. intros g. apply remove_first_in.
    + destruct He as [[-> ->]|(-> & w & r & -> & Hu)]; [left|right].
      * split; [reflexivity|]. unfold wins_of. cbn. unfold set_wins. rewrite set_nth_error, Nat.eqb_refl, Hx. reflexivity.
      * split; [reflexivity|]. exists w. split; [|exact Hu]. exists x. split; [exact Hx|]. rewrite Ed. apply in_or_app. right. now left.
  - assert (Ew : wins_of c f = []) by (unfold wins_of; now rewrite Hx). rewrite Ew in Ed. symmetry in Ed. apply app_eq_nil in Ed. destruct Ed as [-> ->]. cbn [map fold_right length Z.of_nat].
    rewrite (set_wins_none _ _ _ Hx). split.
    + split; cbn; auto.
      * intros g. apply remove_first_in.
      * intros g y H. exists y. split; [exact H|]. split; [reflexivity|]. split; [apply incl_refl|auto].
      * unfold total. cbn. unfold u64. rewrite Zminus_mod_idemp_l. f_equal. lia.
      * unfold number. cbn. lia.
    + left. destruct He as [[-> _]|(_ & w & r & H & _)]; [|discriminate]. split; [reflexivity|]. unfold wins_of. cbn. now rewrite Hx.
Qed.
Lemma find_lru_reg c f : find_lru_file c = Some f -> In f (c_reg c).
Proof.
  unfold find_lru_file. 
  assert (H : forall l acc, (forall g z, acc = Some (g, z) -> In g (c_reg c)) -> (forall g, In g l -> In g (c_reg c)) -> forall g z,
    fold_left (fun (acc : option (nat * Z)) f =>
       match scan true 1 c f None with
       | (true, Some (_, _, last)) => if match acc with None => true | Some (_, l) => last <? l end then Some (f, last) else acc
       | _ => acc
       end) l acc = Some (g, z) -> In g (c_reg c)).
  { induction l as [|h l IH]; intros acc Ha Hl g z E; [eauto|]. cbn [fold_left] in E. eapply IH; [| |exact E].
    - intros g' z'. destruct (scan true 1 c h None) as [[] [[[a b] last]|]]; try (now apply Ha). match goal with |- (if ?b then _ else _) = _ -> _ => destruct b end; [|now apply Ha]. intros H. injection H as <- <-. apply Hl. now left.
    - intros g' Hg. apply Hl. now right. }
  destruct (fold_left _ (c_reg c) None) as [[g z]|] eqn:E; [|discriminate]. cbn. intros Hf. injection Hf as <-. eapply H; [| |exact E]; [discriminate|auto].
Qed.
Lemma close_files_ok : forall fuel c, (length (c_reg c) < fuel)%nat -> exists c', close_files fuel c = Ok c' /\ shrunk c c'.
Proof.
  induction fuel as [|n IH]; intros c Hn; [lia|]. cbn [close_files]. destruct (c_flimit c <=? _); [|exists c; split; [reflexivity|apply shrunk_refl]].
  destruct (find_lru_file c) as [f|] eqn:Ef; [|exists c; split; [reflexivity|apply shrunk_refl]].
  pose proof (free_all_ok c f) as (S1 & _). apply find_lru_reg in Ef. 
  assert (R : S (length (c_reg (snd (free_all c f)))) = length (c_reg c)).
  { unfold free_all. destruct (free_list (wins_of c f)) as [[[len k] rest] e]. cbn. now apply remove_first_len. }
  destruct (IH (snd (free_all c f)) ltac:(lia)) as (c2 & E2 & S2). exists c2. split; [exact E2|]. eapply shrunk_trans; eauto.
Qed.

(** *** Every step *)
Definition about (o : mop) (cu : nat) : Prop := match o with MOpen _ k _ _ _ => k = cu | MClose k => k = cu | _ => False end.
Lemma nth_app_file fs s f x : nth_error (fs ++ [mkf s []]) f = Some x -> nth_error fs f = Some x \/ x = mkf s [].
Proof.
  intros H. destruct (Nat.lt_ge_cases f (length fs)) as [L|L]; [rewrite nth_error_app1 in H by exact L; auto|]. rewrite nth_error_app2 in H by exact L. destruct (f - length fs)%nat as [|[|]]; cbn in H; try discriminate. right. congruence.
Qed.
Lemma mstep_ok n c o : inv n c -> Z.of_nat (S n) < 2 ^ 64 -> proper c o -> exists a c', mstep c o = Ok (a, c') /\ inv (S n) c' /\
  (forall cu id, ~ about o cu -> holds c cu id -> holds c' cu id /\ kept c c' id) /\ (mmap_works o -> drift c' = drift c) /\
  match o, a with
  | MOpen f cu offset extra mm, AAddr id d l => good c' f cu offset extra (id, d, l) /\ (c_next c' <> c_next c -> limited c')
  | MOpen f cu offset extra mm, ANull => mm = (false, false) /\ cursor c cu = None
  | MOpen _ _ _ _ _, _ => False
  | MFreeAll f, ACode e => (e = 0 /\ wins_of c' f = []) \/ (e = -1 /\ exists w, mapped c f w /\ w_inuse w <> 0)
  | MFreeAll _, _ => False
  | MClose cu, _ => forall id, ~ holds c' cu id
  | _, _ => True
  end.
Proof.
  intros J Hn P. destruct o as [s|a b d|f cu offset extra mm|cu|f|f|f]; cbn [mstep].
  - eexists _, _. split; [reflexivity|]. cbn in P. assert (Eall : allw (with_files c (c_files c ++ [mkf s []])) = allw c).
    { unfold allw. cbn. rewrite map_app, concat_app. cbn. now rewrite app_nil_r. }
    split; [|split; [|split; [|exact I]]].
    + apply inv_mono. destruct J as [J1 J2 J3 J4 J5 J6 J7 J8 J9]. split; rewrite ?Eall; auto.
      * intros f x w H Hw. apply nth_app_file in H. destruct H as [H| ->]; [eauto|contradiction].
      * intros f x H. apply nth_app_file in H. destruct H as [H| ->]; [eauto|exact P].
    + intros cu id _ H. split; [exact H|]. intros f w (x & Hx & Hw) _. exists w. split; [|apply same_refl]. exists x. split; [|exact Hw]. cbn. rewrite nth_error_app1; [exact Hx|]. apply nth_error_Some. congruence.
    + intros _. unfold drift, total, number. fold (allw (with_files c (c_files c ++ [mkf s []]))) (allw c). rewrite Eall. reflexivity.
  - eexists _, _. split; [reflexivity|]. cbn in P. split; [|split; [|split; [reflexivity|exact I]]].
    + apply inv_mono. destruct J as [J1 J2 J3 J4 J5 J6 J7 J8 J9]. split; auto.
    + intros cu id _ H. split; [exact H|]. intros f w Hm _. exists w. split; [exact Hm|apply same_refl].
  - destruct (mopen_ok n c f cu offset extra mm J Hn P) as (a & c' & E & J' & K & D & L & R). rewrite E. cbn [bindr fst snd]. eexists _, c'. split; [reflexivity|]. split; [exact J'|]. split; [|split; [exact D|]].
    + intros cu' id Ha H. apply K; [|exact H]. intros ->. now apply Ha.
    + destruct a as [[[id dd] l]|]; [split; [exact R|exact L]|exact R].
  - unfold mclose. destruct (cursor c cu) as [id|] eqn:Ec.
    + assert (Hin : In (cu, id) (c_curs c)) by (apply cursor_some; [apply (i_keys _ _ J)|exact Ec]). destruct (i_live _ _ J _ _ Hin) as (w & Hw & <-). rewrite (live_some c w (i_nodup _ _ J) Hw). cbn [bindr].
      eexists _, _. split; [reflexivity|]. split; [|split; [|split]].
      * apply inv_mono. apply inv_dec; auto. lia.
      * intros cu' i Ha H. split; [unfold holds; cbn; apply drop_in; split; [exact H|cbn; intros ->; now apply Ha]|]. eapply kept_at; [apply dec_same|reflexivity].
      * intros _. unfold drift. match goal with |- context [total ?s] => destruct (total_at c s (w_id w) dec_use dec_same eq_refl) as [-> ->] end. reflexivity.
      * intros i H. unfold holds in H. cbn in H. apply drop_in in H. destruct H as [_ H]. now apply H.
    + cbn [bindr]. eexists _, _. split; [reflexivity|]. split; [now apply inv_mono|]. split; [intros cu' i _ H; split; [exact H|apply kept_refl]|]. split; [reflexivity|].
      intros i H. apply cursor_none in Ec. apply Ec. change cu with (fst (cu, i)). now apply in_map.
  - pose proof (free_all_ok c f) as (S1 & R1). destruct (free_all c f) as [e c']. cbn [fst snd] in *. eexists _, _. split; [reflexivity|]. split; [apply inv_mono; eapply shrunk_inv; eauto|]. split; [|split; [|exact R1]].
    + intros cu id _ H. split; [unfold holds; rewrite (s_curs _ _ S1); exact H|]. eapply kept_shrunk; eauto.
    + intros _. unfold drift. rewrite (s_total _ _ S1), (s_number _ _ S1). reflexivity.
  - unfold mregister. assert (exists c1, (if c_flimit c =? 0 then Ok c else close_files (S (length (c_reg c))) c) = Ok c1 /\ shrunk c c1) as (c1 & E1 & S1).
    { destruct (c_flimit c =? 0); [exists c; split; [reflexivity|apply shrunk_refl]|]. destruct (close_files_ok (S (length (c_reg c))) c ltac:(lia)) as (c1 & E1 & S1). eauto. }
    rewrite E1. cbn [bindr]. eexists _, _. split; [reflexivity|]. pose proof (shrunk_inv _ _ _ J S1) as J1. split; [|split; [|split; [|exact I]]].
    + apply inv_mono. destruct J1 as [J11 J2 J3 J4 J5 J6 J7 J8 J9]. split; auto.
    + intros cu id _ H. split; [unfold holds; cbn; rewrite (s_curs _ _ S1); exact H|]. exact (kept_shrunk n c c1 cu id J S1 H).
    + intros _. unfold drift. change (total (with_reg c1 (c_reg c1 ++ [f]))) with (total c1). change (number (with_reg c1 (c_reg c1 ++ [f]))) with (number c1). cbn [c_mapped c_open with_reg]. rewrite (s_total _ _ S1), (s_number _ _ S1). reflexivity.
  - eexists _, _. split; [reflexivity|]. split; [|split; [|split; [reflexivity|exact I]]].
    + apply inv_mono. destruct J as [J1 J2 J3 J4 J5 J6 J7 J8 J9]. split; auto.
    + intros cu id _ H. split; [exact H|]. intros g w Hm _. exists w. split; [exact Hm|apply same_refl].
Qed.
