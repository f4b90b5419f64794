From Verif Require Import Base Str WildModel WildSpec WildProps RefnameModel RefnameSpec RefnameProps RefspecModel RefspecSpec.

Lemma rcut_spec c s : match rcut c s with
  | Some (a, b) => s = a ++ c :: b /\ ~ In c b
  | None => ~ In c s end.
Proof.
  induction s as [|x s IH]; cbn; [auto|]. destruct (rcut c s) as [[a b]|].
  - destruct IH as [-> H]. auto.
  - destruct (Z.eqb_spec x c) as [->|N]; [auto|]. intros [E|E]; auto.
Qed.
Lemma lcut_spec c s : match lcut c s with
  | Some (a, b) => s = a ++ c :: b /\ ~ In c a
  | None => ~ In c s end.
Proof.
  induction s as [|x s IH]; cbn; [auto|]. destruct (Z.eqb_spec x c) as [->|N]; [auto|].
  destruct (lcut c s) as [[a b]|].
  - destruct IH as [-> H]. cbn. split; [reflexivity|]. intros [E|E]; auto.
  - intros [E|E]; auto.
Qed.
Lemma lcut_at c a b : ~ In c a -> lcut c (a ++ c :: b) = Some (a, b).
Proof.
  induction a as [|x a IH]; cbn; intros H; [rewrite Z.eqb_refl; reflexivity|].
  destruct (Z.eqb_spec x c) as [->|N]; [exfalso; auto|]. rewrite IH by auto. reflexivity.
Qed.
Lemma rcut_at c a b : ~ In c b -> rcut c (a ++ c :: b) = Some (a, b).
Proof.
  intros H. induction a as [|x a IH]; cbn.
  - assert (E : rcut c b = None). { pose proof (rcut_spec c b) as HS. destruct (rcut c b) as [[u v]|]; [|reflexivity]. destruct HS as [-> _]. exfalso. apply H. apply in_or_app. right. left. reflexivity. }
    rewrite E, Z.eqb_refl. reflexivity.
  - rewrite IH. reflexivity.
Qed.
Lemma rcut_none c s : ~ In c s -> rcut c s = None.
Proof. pose proof (rcut_spec c s) as H. destruct (rcut c s) as [[a b]|]; [|reflexivity]. destruct H as [-> _]. intros N. exfalso. apply N. apply in_or_app. right. left. reflexivity. Qed.
Lemma hasc_spec c s : hasc c s = true <-> In c s.
Proof. unfold hasc. rewrite existsb_exists. split; [intros (x & H & E); apply Z.eqb_eq in E; subst; exact H|intros H; exists c; rewrite Z.eqb_refl; auto]. Qed.
Lemma hasc_false c s : hasc c s = false <-> ~ In c s.
Proof. rewrite <- hasc_spec. destruct (hasc c s); split; congruence. Qed.

Lemma count_pos c s : (0 < count c s)%nat <-> In c s.
Proof.
  unfold count. split.
  - intros H. destruct (filter (Z.eqb c) s) as [|x r] eqn:E; [cbn in H; lia|]. assert (Hx : In x (filter (Z.eqb c) s)) by (rewrite E; left; reflexivity).
    apply filter_In in Hx. destruct Hx as [Hx Ex]. apply Z.eqb_eq in Ex. subst. exact Hx.
  - intros H. assert (Hx : In c (filter (Z.eqb c) s)) by (apply filter_In; rewrite Z.eqb_refl; auto). destruct (filter (Z.eqb c) s); [contradiction|cbn; lia].
Qed.
Lemma count_app c a b : count c (a ++ b) = (count c a + count c b)%nat.
Proof. unfold count. rewrite filter_app, app_length. reflexivity. Qed.

Definition fl_of (g : bool) : rflags := mkf true g true false.
Lemma bs4 c : In c (bs "*?[\") <-> c = 42 \/ c = 63 \/ c = 91 \/ c = 92.
Proof. cbn. intuition. Qed.
Lemma valid_chars g n : refname_ok (fl_of g) n -> Forall (fun c => c <> 63 /\ c <> 91 /\ c <> 92 /\ c <> 58) n /\ (count 42 n <= if g then 1 else 0)%nat.
Proof.
  intros (_ & Hc & Hn & _). split; [|exact Hn].
  assert (Hf : forall r, Forall (fun c => ~ forbidden c) r -> Forall (fun c => c <> 63 /\ c <> 91 /\ c <> 92 /\ c <> 58) r).
  { intros r H. eapply Forall_impl; [|exact H]. cbn. unfold forbidden. intros c Hx. repeat split; intros ->; apply Hx; right; cbn; auto 9. }
  destruct Hc as [H|(r & -> & H)]; [auto|]. constructor; [|auto]. cbn. lia.
Qed.
Lemma valid_one_star g n : refname_ok (fl_of g) n -> In 42 n -> exists a b, one_star n a b.
Proof.
  intros H Hin. destruct (valid_chars g n H) as [Hc Hn]. apply in_split in Hin. destruct Hin as (a & b & ->).
  exists a, b. split; [reflexivity|]. rewrite count_app in Hn. change (42 :: b) with ([42] ++ b) in Hn. rewrite count_app in Hn. change (count 42 [42]) with 1%nat in Hn.
  apply Forall_app in Hc. destruct Hc as [Ha Hb]. inversion Hb as [|? ? _ Hb']; subst.
  assert (HH : forall s, Forall (fun c => c <> 63 /\ c <> 91 /\ c <> 92 /\ c <> 58) s -> count 42 s = 0%nat -> lit s).
  { intros s Hs H0. apply Forall_forall. intros c Hi Hb4. revert Hb4. rewrite bs4. rewrite Forall_forall in Hs. specialize (Hs c Hi).
    intros [->|[->|[->| ->]]]; try tauto. apply count_pos in Hi. lia. }
  split; apply HH; try assumption; destruct g; lia.
Qed.
Lemma valid_lit g n : refname_ok (fl_of g) n -> ~ In 42 n -> lit n.
Proof.
  intros H Hin. destruct (valid_chars g n H) as [Hc _]. apply Forall_forall. intros c Hi Hb4. revert Hb4. rewrite bs4. rewrite Forall_forall in Hc. specialize (Hc c Hi).
  intros [->|[->|[->| ->]]]; tauto.
Qed.
Lemma lit_plain s : lit s -> Forall plain s.
Proof. intros H. eapply Forall_impl; [|exact H]. intros c Hc. cbn beta in Hc; rewrite bs4 in Hc. unfold plain. cbn. tauto. Qed.

Lemma check_name_ok n g k s : check_name n (fl_of g) k = Ok s -> refname_ok (fl_of g) n /\ k = Ok s.
Proof.
  unfold check_name. destruct (name_valid_exact (fl_of g) n eq_refl) as [[E H]|[E H]]; rewrite E; [auto|discriminate].
Qed.
Lemma check_name_pass n g k : refname_ok (fl_of g) n -> check_name n (fl_of g) k = k.
Proof. intros H. unfold check_name. destruct (name_valid_exact (fl_of g) n eq_refl) as [[E _]|[_ N]]; [rewrite E; reflexivity|contradiction]. Qed.
Lemma check_name_total n g k : (exists c, k = Err c) \/ (exists s, k = Ok s) -> (exists c, check_name n (fl_of g) k = Err c) \/ (exists s, check_name n (fl_of g) k = Ok s).
Proof. intros H. unfold check_name. destruct (name_valid_exact (fl_of g) n eq_refl) as [[E _]|[E _]]; rewrite E; eauto. Qed.

Definition src_part (lhs : list Z) : list Z := match rcut 58 lhs with Some (l, _) => l | None => lhs end.

(** Everything that follows from acceptance. *)
Record accepted (input : list Z) (fetch : bool) (s : refspec) : Prop := {
  acc_spells : spells input fetch s;
  acc_star : rs_pattern s = true -> (exists a b, one_star (rs_src s) a b) /\
      match rs_dst s with Some d => exists a b, one_star d a b | None => negative fetch s end;
  acc_lit : rs_pattern s = false -> (fetch = true -> lit (rs_src s)) /\ (match rs_dst s with Some d => lit d | None => True end) /\ ~ In 42 (rs_src s) }.

Ltac inv_ok H := injection H as <-.

Lemma parse_accepted input fetch s : refspec_parse input fetch = Ok s -> accepted input fetch s.
Proof.
  unfold refspec_parse. set (force := hd 0 input =? 43). set (lhs := if force then tl input else input).
  assert (Hin : input = (if force then bs "+" else []) ++ lhs).
  { unfold lhs, force. destruct input as [|c r]; [reflexivity|]. cbn [hd tl]. destruct (Z.eqb_spec c 43) as [->|N]; reflexivity. }
  assert (Hnp : force = false -> ~ starts_with (bs "+") lhs).
  { unfold lhs. intros Hf. rewrite Hf. intros [v Hv]. unfold force in Hf. rewrite Hv in Hf. cbn in Hf. discriminate. }
  destruct (negb fetch && leqb lhs [58]) eqn:Em.
  { intros H. inv_ok H. apply andb_prop in Em. destruct Em as [E1 E2]. apply negb_true_iff in E1. apply leqb_spec in E2. subst fetch.
    split; cbn [rs_pattern rs_src rs_dst]; [|discriminate|intros _; repeat split; try constructor; intros []].
    exists lhs. cbn. repeat split; auto. right. exists []. rewrite E2. cbn. auto. }
  set (is_neg := hd 0 lhs =? 94).
  assert (Hneg : is_neg = true -> starts_with (bs "^") lhs).
  { unfold is_neg. destruct lhs as [|y l']; [discriminate|]. cbn [hd]. intros E. apply Z.eqb_eq in E. subst y. exists l'. reflexivity. }
  clearbody is_neg.
  pose proof (rcut_spec 58 lhs) as HC.
  destruct (rcut 58 lhs) as [[l r]|] eqn:Ec; cbv beta iota zeta; cbn [negb andb orb].
  - destruct HC as [HC HCr].
    set (dst := if negb (length r =? 0)%nat || negb fetch then Some r else None).
    assert (Hdst : dst = if fetch then (match r with [] => None | _ => Some r end) else Some r).
    { unfold dst. destruct r; destruct fetch; reflexivity. }
    assert (Hsp : forall p, spells input fetch (mkrs input l dst force (negb fetch) p false)).
    { intros p. exists lhs. cbn [rs_force rs_push rs_string rs_src rs_dst]. repeat split; auto. right. exists r. auto. }
    destruct (hasc 42 l) eqn:El; cbn [negb andb orb].
    + rewrite orb_false_r. destruct (hasc 42 r) eqn:Er; cbn [negb orb]; [|discriminate].
      destruct is_neg eqn:En; [discriminate|]. apply hasc_spec in El, Er.
      destruct r as [|x r']; [contradiction|].
      assert (Hds : dst = Some (x :: r')) by (rewrite Hdst; destruct fetch; reflexivity). rewrite Hds in *. clear Hds Hdst. clear dst.
      set (r := x :: r') in *.
      destruct l as [|y l']; [contradiction|].
      assert (HA : refname_ok (fl_of true) (y :: l') -> refname_ok (fl_of true) r -> accepted input fetch (mkrs input (y :: l') (Some r) force (negb fetch) true false)).
      { intros H1 H2. split; [apply Hsp|intros _|discriminate]. cbn [rs_src rs_dst]. split; [apply (valid_one_star true); assumption|apply (valid_one_star true); assumption]. }
      change (mkf true true true false) with (fl_of true).
      destruct fetch; intros H; apply check_name_ok in H; destruct H as [H1 H]; apply check_name_ok in H; destruct H as [H2 H]; inv_ok H; apply HA; assumption.
    + apply hasc_false in El. destruct (hasc 42 r) eqn:Er; cbn [negb andb orb]; [discriminate|]. apply hasc_false in Er.
      change (mkf true false true false) with (fl_of false).
      assert (HA : (fetch = true -> l = [] \/ refname_ok (fl_of false) l) -> (match dst with Some d => d = [] \/ refname_ok (fl_of false) d | None => True end) ->
          accepted input fetch (mkrs input l dst force (negb fetch) false false)).
      { intros H1 H2. split; [apply Hsp|discriminate|intros _]. cbn [rs_src rs_dst]. split; [|split].
        - intros Hf. destruct (H1 Hf) as [->|H]; [constructor|]. apply (valid_lit false); assumption.
        - assert (Hl : r = [] \/ refname_ok (fl_of false) r -> lit r) by (intros [->|HH]; [constructor|exact (valid_lit false _ HH Er)]).
          rewrite Hdst in *. destruct fetch; [destruct r; auto|auto].
        - exact El. }
      destruct fetch.
      * intros H.
        assert (Hk : (match dst with None => Ok (mkrs input l None force false false false) | Some [] => Ok (mkrs input l dst force false false false)
                     | Some d => check_name d (fl_of false) (Ok (mkrs input l dst force false false false)) end) = Ok s -> (match dst with Some d => d = [] \/ refname_ok (fl_of false) d | None => True end) /\ s = mkrs input l dst force false false false).
        { destruct dst as [[|x d]|]; intros HH; [inv_ok HH; auto| |inv_ok HH; auto]. apply check_name_ok in HH. destruct HH as [H2 HH]. inv_ok HH. auto. }
        destruct l as [|y l'].
        -- apply Hk in H. destruct H as [H2 ->]. apply HA; [auto|exact H2].
        -- apply check_name_ok in H. destruct H as [H1 H]. apply Hk in H. destruct H as [H2 ->]. apply HA; [auto|exact H2].
      * intros H. assert (Hds : dst = Some r) by (rewrite Hdst; reflexivity). rewrite Hds in *.
        assert (H' : match r with [] => Err EINVALIDSPEC | _ => check_name r (fl_of false) (Ok (mkrs input l (Some r) force true false false)) end = Ok s).
        { destruct l; destruct r; exact H. }
        destruct r as [|x r']; [discriminate|]. apply check_name_ok in H'. destruct H' as [H2 HH]. inv_ok HH. apply HA; [discriminate|auto].
  - assert (Hsp : forall p, spells input fetch (mkrs input lhs (if fetch then None else Some lhs) force (negb fetch) p false)).
    { intros p. exists lhs. cbn [rs_force rs_push rs_string rs_src rs_dst]. repeat split; auto. }
    destruct (hasc 42 lhs) eqn:El; cbn [negb andb orb].
    + apply hasc_spec in El. change (mkf true true true false) with (fl_of true). destruct lhs as [|y l'] eqn:Elhs; [contradiction|]. rewrite <- Elhs in *.
      destruct fetch; cbn [negb andb orb].
      * destruct is_neg eqn:En; cbn [negb]; [|discriminate]. intros H. apply check_name_ok in H. destruct H as [H1 H]. inv_ok H.
        split; [apply Hsp|intros _|discriminate]. cbn [rs_src rs_dst]. split; [apply (valid_one_star true); assumption|].
        split; [reflexivity|]. split; [reflexivity|]. exact (Hneg eq_refl).
      * intros H. apply check_name_ok in H. destruct H as [H1 H]. apply check_name_ok in H. destruct H as [_ H]. inv_ok H.
        split; [apply Hsp|intros _|discriminate]. cbn [rs_src rs_dst]. split; apply (valid_one_star true); assumption.
    + apply hasc_false in El. change (mkf true false true false) with (fl_of false). cbn [hasc existsb].
      destruct fetch; intros H.
      * assert (HA : lhs = [] \/ refname_ok (fl_of false) lhs -> accepted input true (mkrs input lhs None force false false false)).
        { intros H1. split; [apply Hsp|discriminate|intros _]. cbn [rs_src rs_dst]. split; [|auto]. intros _. destruct H1 as [->|H1]; [constructor|]. apply (valid_lit false); assumption. }
        destruct lhs as [|y l'] eqn:Elhs; [inv_ok H; auto|]. apply check_name_ok in H. destruct H as [H1 H]. inv_ok H. auto.
      * assert (H' : check_name lhs (fl_of false) (Ok (mkrs input lhs (Some lhs) force true false false)) = Ok s) by (destruct lhs; exact H).
        apply check_name_ok in H'. destruct H' as [H1 H']. inv_ok H'.
        split; [apply Hsp|discriminate|intros _]. cbn [rs_src rs_dst]. split; [discriminate|]. split; [apply (valid_lit false); assumption|exact El].
Qed.
