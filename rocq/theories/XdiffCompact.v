(** Sliding the groups of changed lines (xdl_change_compact) keeps the unchanged lines. *)
From Verif Require Import Base CStr Str ApplyModel XdiffModel XdiffProofs.
Local Open Scope nat_scope.

Definition edge_l (A : list bool) : Prop := A = [] \/ exists A', A = A' ++ [false].
Definition edge_r (B : list bool) : Prop := B = [] \/ exists B', B = false :: B'.
Lemma lead (Q : list bool) : exists k B, Q = repeat true k ++ B /\ edge_r B.
Proof. induction Q as [|[] Q IH]; [exists 0, []; split; [auto|now left]| |exists 0, (false :: Q); split; [auto|right; eauto]]. destruct IH as (k & B & -> & E). exists (S k), B. auto. Qed.
Lemma trail (P : list bool) : exists A k, P = A ++ repeat true k /\ edge_l A.
Proof.
  induction P as [|[] P IH] using rev_ind; [exists [], 0; split; [auto|now left]| |exists (P ++ [false]), 0; split; [now rewrite app_nil_r|right; eauto]].
  destruct IH as (A & k & -> & E). exists A, (S k). split; auto. rewrite <- app_assoc. f_equal. clear. induction k as [|k IH]; cbn in *; [auto|now rewrite IH].
Qed.
Lemma repeat_snoc {T} (x : T) k : repeat x k ++ [x] = repeat x (S k).
Proof. induction k; cbn; auto. cbn in IHk. now rewrite IHk. Qed.
Lemma nth_app_at {T} (P : list T) x Q d : nth (length P) (P ++ x :: Q) d = x.
Proof. rewrite app_nth2 by lia. now rewrite Nat.sub_diag. Qed.

Lemma rchg_at_app P Q i : i = length P -> rchg_at (P ++ Q) i = Ok (match Q with [] => false | b :: _ => b end).
Proof.
  intros ->. unfold rchg_at. rewrite app_length. destruct (Nat.leb_spec (length P) (length P + length Q)); [|lia]. f_equal.
  destruct Q; [rewrite app_nil_r; now rewrite nth_overflow|apply nth_app_at].
Qed.
Lemma scan_down_app B : edge_r B -> forall k P fuel, k <= fuel -> scan_down fuel (P ++ repeat true k ++ B) (length P) = Ok (length P + k).
Proof.
  intros E. induction k as [|k IH]; intros P fuel L.
  - cbn [repeat app]. destruct fuel; cbn [scan_down]; rewrite (rchg_at_app P B) by auto; cbn [bindr]; rewrite Nat.add_0_r; destruct E as [->|(B' & ->)]; auto.
  - destruct fuel as [|f]; [lia|]. cbn [scan_down]. rewrite (rchg_at_app P) by auto. cbn [repeat app bindr].
    replace (P ++ true :: repeat true k ++ B) with ((P ++ [true]) ++ repeat true k ++ B) by now rewrite <- app_assoc.
    specialize (IH (P ++ [true]) f). rewrite app_length in IH. cbn in IH. replace (S (length P)) with (length P + 1) by lia. rewrite IH by lia. f_equal. lia.
Qed.
Lemma rchg_before_app P Q i : i = length P -> rchg_before (P ++ Q) i = Ok (last P false).
Proof.
  intros ->. destruct P as [|x P] using rev_ind; [reflexivity|]. rewrite last_last. rewrite app_length. cbn [length]. rewrite Nat.add_1_r. cbn [rchg_before]. rewrite <- app_assoc. now rewrite (rchg_at_app P).
Qed.
Lemma scan_up_app A : edge_l A -> forall k Q fuel i, k <= fuel -> i = length A + k -> scan_up fuel (A ++ repeat true k ++ Q) i = Ok (length A).
Proof.
  intros E. induction k as [|k IH]; intros Q fuel i L ->.
  - cbn [repeat app]. rewrite Nat.add_0_r. destruct fuel; cbn [scan_up]; rewrite (rchg_before_app A) by auto; cbn [bindr]; destruct E as [->|(A' & ->)]; rewrite ?last_last; auto.
  - destruct fuel as [|f]; [lia|]. cbn [scan_up]. rewrite app_assoc. rewrite (rchg_before_app (A ++ repeat true (S k))) by (rewrite app_length, repeat_length; lia). 
    rewrite <- repeat_snoc. rewrite app_assoc, last_last. cbn [bindr]. rewrite <- !app_assoc. apply IH; lia.
Qed.

(** [D m g A k B]: the group [g] of the marks [m] is the [k] marked lines between [A] and [B]. *)
Record D (m : list bool) (g : group) (A : list bool) (k : nat) (B : list bool) : Prop := mkD {
  d_m : m = A ++ repeat true k ++ B; d_s : g_start g = length A; d_e : g_end g = length A + k; d_l : edge_l A; d_r : edge_r B }.
Definition nfalse (l : list bool) : nat := length (filter negb l).
Definition ntrue (l : list bool) : nat := length (filter (fun b => b) l).
Lemma nfalse_app a b : nfalse (a ++ b) = nfalse a + nfalse b.
Proof. unfold nfalse. now rewrite filter_app, app_length. Qed.
Lemma ntrue_app a b : ntrue (a ++ b) = ntrue a + ntrue b.
Proof. unfold ntrue. now rewrite filter_app, app_length. Qed.
Lemma nfalse_true k : nfalse (repeat true k) = 0.
Proof. induction k; auto. Qed.
Lemma ntrue_true k : ntrue (repeat true k) = k.
Proof. induction k; auto. cbn in *. unfold ntrue in *. cbn. lia. Qed.
Lemma ntrue_le l : ntrue l <= length l.
Proof. induction l as [|[] l IH]; cbn; auto; unfold ntrue in *; cbn; lia. Qed.
Lemma nfalse_kept {T} m : forall (xs : list T), length m = length xs -> length (kept m xs) = nfalse m.
Proof. induction m as [|[] m IH]; intros [|x xs] L; try discriminate; auto; cbn in *; unfold nfalse in *; cbn; rewrite ?IH; auto. Qed.

Lemma init_D m : exists g k B, group_init m = Ok g /\ D m g [] k B.
Proof.
  unfold group_init. destruct (lead m) as (k & B & E & R). exists (mkgroup 0 k), k, B. split; [|constructor; cbn; auto; now left].
  rewrite E at 2. pose proof (scan_down_app B R k [] (length m)) as H. cbn [app length] in H. rewrite H; auto. rewrite E, app_length, repeat_length. lia.
Qed.
Lemma next_D m g A k B : D m g A k B ->
  (B = [] /\ group_next m g = Ok None) \/
  exists j B', B = false :: repeat true j ++ B' /\ group_next m g = Ok (Some (mkgroup (S (g_end g)) (S (g_end g) + j))) /\ D m (mkgroup (S (g_end g)) (S (g_end g) + j)) (A ++ repeat true k ++ [false]) j B'.
Proof.
  intros [Em Es Ee El Er]. unfold group_next. destruct Er as [->|(B1 & ->)].
  - left. split; auto. rewrite Em, Ee, !app_length, repeat_length. cbn. rewrite Nat.add_0_r, Nat.eqb_refl. auto.
  - right. destruct (lead B1) as (j & B' & -> & E). exists j, B'. split; auto. rewrite Em, Ee, !app_length, repeat_length. cbn [length].
    destruct (Nat.eqb_spec (length A + k) (length A + (k + S (length (repeat true j ++ B'))))); [lia|].
    assert (Ea : A ++ repeat true k ++ false :: repeat true j ++ B' = (A ++ repeat true k ++ [false]) ++ repeat true j ++ B') by (rewrite <- !app_assoc; auto).
    assert (Ll : S (length A + k) = length (A ++ repeat true k ++ [false])) by (rewrite !app_length, repeat_length; cbn; lia).
    assert (Sc : forall n, j <= n -> scan_down n (A ++ repeat true k ++ false :: repeat true j ++ B') (S (length A + k)) = Ok (S (length A + k) + j)).
    { intros n0 Hn. rewrite Ea, Ll. now apply scan_down_app. }
    rewrite Sc by (rewrite !app_length, repeat_length; lia). cbn [bindr]. split; auto.
    constructor; cbn [g_start g_end]; auto; try lia. right. exists (A ++ repeat true k). now rewrite <- app_assoc.
Qed.
Lemma prev_D m g A k B : D m g A k B ->
  (A = [] /\ group_previous m g = Ok None) \/
  exists A' j, A = A' ++ repeat true j ++ [false] /\ group_previous m g = Ok (Some (mkgroup (length A') (length A' + j))) /\ D m (mkgroup (length A') (length A' + j)) A' j (false :: repeat true k ++ B).
Proof.
  intros [Em Es Ee El Er]. unfold group_previous. destruct El as [->|(A1 & ->)].
  - left. split; auto. now rewrite Es.
  - right. destruct (trail A1) as (A' & j & -> & E). exists A', j. split; [now rewrite <- app_assoc|]. rewrite Es, Em, !app_length, !repeat_length. cbn [length].
    destruct (Nat.eqb_spec (length A' + j + 1) 0); [lia|].
    assert (Ea : (((A' ++ repeat true j) ++ [false]) ++ repeat true k ++ B) = A' ++ repeat true j ++ false :: repeat true k ++ B) by (rewrite <- !app_assoc; auto).
    rewrite Ea. cbv zeta. rewrite scan_up_app; auto; [|lia|lia]. cbn [bindr]. replace (length A' + j + 1 - 1) with (length A' + j) by lia. split; auto.
    constructor; cbn [g_start g_end]; auto. right. eauto.
Qed.

Section Slide.
Variables (hs : list nat) (mo : list bool).

Lemma split_at {T} (l : list T) n x : nth_error l n = Some x -> exists a b, l = a ++ x :: b /\ length a = n.
Proof. intros H. destruct (nth_error_split l n H) as (a & b & E & L). eauto. Qed.
Lemma mark_app P b Q c i : i = length P -> mark (P ++ b :: Q) i c = Ok (P ++ c :: Q).
Proof. intros ->. unfold mark. rewrite app_length. cbn [length]. destruct (Nat.ltb_spec (length P) (length P + S (length Q))); [|lia]. now rewrite upd_at. Qed.

(** One group of lines moved past one line: the kept lines are the same. *)
Lemma slide_kept A k B a b : length hs = length A + k + 1 + length B -> nth_error hs (length A) = Some a -> nth_error hs (length A + k) = Some b -> a = b ->
  kept (A ++ repeat true k ++ false :: B) hs = kept (A ++ false :: repeat true k ++ B) hs.
Proof.
  intros L Ha Hb <-. destruct (split_at _ _ _ Hb) as (X & HB & E1 & LX).
  destruct k as [|k]; [reflexivity|].
  assert (E2 : exists HA HM, X = HA ++ a :: HM /\ length HA = length A /\ length HM = k).
  { rewrite E1 in Ha. rewrite nth_error_app1 in Ha by lia. destruct (split_at _ _ _ Ha) as (HA & HM & -> & LA). exists HA, HM. rewrite app_length in LX. cbn in LX. repeat split; lia. }
  destruct E2 as (HA & HM & -> & LA & LM). rewrite E1. rewrite <- app_assoc. cbn [app].
  assert (LB : length B = length HB) by (apply (f_equal (@length _)) in E1; rewrite !app_length in E1; cbn in E1; lia).
  rewrite !kept_app by lia. f_equal. change (kept (repeat true k ++ false :: B) (HM ++ a :: HB) = a :: kept (repeat true (S k) ++ B) (HM ++ a :: HB)).
  transitivity (a :: kept B HB).
  - rewrite (kept_app (repeat true k)) by (rewrite repeat_length; lia). now rewrite kept_true.
  - f_equal. symmetry. rewrite <- repeat_snoc. change (a :: HB) with ([a] ++ HB). rewrite (app_assoc HM).
    rewrite (kept_app (repeat true k ++ [true])) by (rewrite !app_length, repeat_length; cbn; lia). now rewrite repeat_snoc, kept_true.
Qed.

Lemma slide_down_D m g A k B : D m g A k B -> length m = length hs -> 1 <= k ->
  slide_down hs m g = Ok None \/
  exists j B', B = false :: repeat true j ++ B' /\ edge_r B' /\ nth_error hs (length A) = nth_error hs (length A + k) /\
    let m' := (A ++ [false]) ++ repeat true (k + j) ++ B' in let g' := mkgroup (S (g_start g)) (S (g_end g) + j) in
    slide_down hs m g = Ok (Some (m', g')) /\ D m' g' (A ++ [false]) (k + j) B' /\ kept m' hs = kept m hs.
Proof.
  intros [Em Es Ee El Er] Ln K. unfold slide_down. destruct Er as [->|(B1 & ->)].
  { left. assert (Lm : length m = g_end g) by (rewrite Ee, Em, !app_length, repeat_length; cbn; lia). destruct (Nat.ltb_spec (g_end g) (length m)); [lia|auto]. }
  assert (Lm : length m = length A + k + 1 + length B1) by (rewrite Em, !app_length, repeat_length; cbn; lia).
  destruct (Nat.ltb_spec (g_end g) (length m)) as [_|]; [|lia].
  destruct (getc_lt hs (g_start g)) as (a & Ea & ->); [lia|]. destruct (getc_lt hs (g_end g)) as (b & Eb & ->); [lia|]. cbn [bindr].
  destruct (Nat.eqb_spec a b) as [Eq|]; [|auto]. right. destruct (lead B1) as (j & B' & EB & Rr). exists j, B'. split; [now rewrite EB|]. split; auto. rewrite Es in Ea. rewrite Ee in Eb. split; [congruence|].
  cbv zeta. destruct k as [|k]; [lia|].
  rewrite Em at 1. cbn [repeat app]. rewrite mark_app by auto. cbn [bindr].
  replace (A ++ false :: repeat true k ++ false :: B1) with ((A ++ false :: repeat true k) ++ false :: B1) by (rewrite <- app_assoc; auto).
  rewrite mark_app by (rewrite app_length; cbn; rewrite repeat_length; lia). cbn [bindr].
  assert (Em' : (A ++ false :: repeat true k) ++ true :: B1 = (A ++ [false]) ++ repeat true (S k + j) ++ B').
  { rewrite EB, <- !app_assoc. cbn [app]. do 2 f_equal. rewrite repeat_app, <- app_assoc. rewrite <- (repeat_snoc true k), <- app_assoc. reflexivity. }
  rewrite Em'. assert (Es' : S (g_end g) = length (A ++ false :: repeat true k ++ [true])) by (rewrite app_length; cbn; rewrite app_length, repeat_length; cbn; lia).
  assert (Ee' : (A ++ [false]) ++ repeat true (S k + j) ++ B' = (A ++ false :: repeat true k ++ [true]) ++ repeat true j ++ B').
  { rewrite repeat_app, <- (repeat_snoc true k), <- !app_assoc. cbn [app]. now rewrite <- !app_assoc. }
  assert (Sc : scan_down (length ((A ++ [false]) ++ repeat true (S k + j) ++ B')) ((A ++ [false]) ++ repeat true (S k + j) ++ B') (S (g_end g)) = Ok (S (g_end g) + j)).
  { rewrite Ee' at 2. rewrite Es'. apply scan_down_app; auto. rewrite !app_length, repeat_length. lia. }
  rewrite Sc. cbn [bindr]. split; [reflexivity|]. split.
  - constructor; cbn [g_start g_end]; auto; rewrite ?app_length; cbn [length]; try lia. right. eauto.
  - rewrite Em. rewrite <- Em'. replace ((A ++ false :: repeat true k) ++ true :: B1) with (A ++ false :: repeat true (S k) ++ B1) by (rewrite <- (repeat_snoc true k), <- !app_assoc; reflexivity).
    symmetry. eapply slide_kept; [|exact Ea|exact Eb|exact Eq]. lia.
Qed.
Lemma slide_up_D m g A k B : D m g A k B -> length m = length hs -> 1 <= k ->
  (slide_up hs m g = Ok None /\ (A = [] \/ nth_error hs (length A - 1) <> nth_error hs (length A + k - 1))) \/
  exists A' j, A = A' ++ repeat true j ++ [false] /\ edge_l A' /\
    let m' := A' ++ repeat true (j + k) ++ false :: B in let g' := mkgroup (length A') (g_end g - 1) in
    slide_up hs m g = Ok (Some (m', g')) /\ D m' g' A' (j + k) (false :: B) /\ kept m' hs = kept m hs.
Proof.
  intros [Em Es Ee El Er] Ln K. unfold slide_up. destruct El as [->|(A1 & ->)].
  { left. rewrite Es. cbn. auto. }
  rewrite app_length in *. cbn [length] in *.
  assert (Lm : length m = length A1 + 1 + k + length B) by (rewrite Em, !app_length, repeat_length; cbn; lia).
  destruct (Nat.ltb_spec 0 (g_start g)) as [_|]; [|lia]. destruct (Nat.eqb_spec (g_end g) 0); [lia|].
  destruct (getc_lt hs (g_start g - 1)) as (a & Ea & ->); [lia|]. destruct (getc_lt hs (g_end g - 1)) as (b & Eb & ->); [lia|]. cbn [bindr].
  rewrite Es in Ea. rewrite Ee in Eb. replace (length A1 + 1 - 1) with (length A1) in * by lia.
  destruct (Nat.eqb_spec a b) as [Eq|N]; [|left; split; [auto|right; congruence]]. right. destruct (trail A1) as (A' & j & EA & Rl). exists A', j. split; [now rewrite EA, <- app_assoc|]. split; auto.
  cbv zeta. rewrite Em at 1. rewrite <- app_assoc. cbn [app]. rewrite mark_app by lia. cbn [bindr].
  replace (A1 ++ true :: repeat true k ++ B) with ((A1 ++ repeat true k) ++ true :: B).
  2: { rewrite <- app_assoc. f_equal. change (repeat true k ++ [true] ++ B = [true] ++ repeat true k ++ B). rewrite !app_assoc. now rewrite repeat_snoc. }
  rewrite mark_app by (rewrite app_length, repeat_length; lia). cbn [bindr].
  assert (Em' : (A1 ++ repeat true k) ++ false :: B = A' ++ repeat true (j + k) ++ false :: B) by (rewrite EA, repeat_app, <- !app_assoc; auto).
  rewrite Em'. assert (Lj : length A1 = length A' + j) by (rewrite EA, app_length, repeat_length; auto).
  assert (Sc : scan_up (length (A' ++ repeat true (j + k) ++ false :: B)) (A' ++ repeat true (j + k) ++ false :: B) (g_start g - 1) = Ok (length A')).
  { rewrite repeat_app, <- app_assoc. apply scan_up_app; auto; [rewrite !app_length, repeat_length; lia|lia]. }
  rewrite Sc. cbn [bindr]. split; [reflexivity|]. split.
  - constructor; cbn [g_start g_end]; auto; try lia. right. eauto.
  - rewrite <- Em', Em, <- !app_assoc. eapply slide_kept; [lia|exact Ea| |exact Eq]. rewrite <- Eb. f_equal. lia.
Qed.

(** The two files are in step: before and after the two groups there are equally many unmarked lines. *)
Definition size (g : group) : nat := g_end g - g_start g.
Definition Inv (K : list nat) (t : nat) (st : state) : Prop :=
  let '(m, g, go) := st in
  exists A k B Ao ko Bo, D m g A k B /\ D mo go Ao ko Bo /\ nfalse A = nfalse Ao /\ nfalse B = nfalse Bo /\ kept m hs = K /\ length m = length hs /\ ntrue B <= t.
Definition sz (st : state) : nat := size (snd (fst st)).
Definition en (st : state) : nat := g_end (snd (fst st)).
Lemma Inv_bounds K t st : Inv K t st -> sz st <= en st /\ en st <= length hs.
Proof. destruct st as [[m g] go]. intros (A & k & B & Ao & ko & Bo & [Em Es Ee _ _] & _ & _ & _ & _ & L & _). unfold sz, size, en. cbn. split; [lia|]. rewrite <- L, Em, !app_length, repeat_length. lia. Qed.

Lemma up_step K t m g go : Inv K t (m, g, go) -> 1 <= size g ->
  slide_up hs m g = Ok None \/
  exists m' g' go', slide_up hs m g = Ok (Some (m', g')) /\ group_previous mo go = Ok (Some go') /\ Inv K t (m', g', go') /\ size g <= size g' /\ g_end g' = g_end g - 1 /\ 1 <= g_end g.
Proof.
  intros (A & k & B & Ao & ko & Bo & Dm & Do & N1 & N2 & Hk & L & T) Hs.
  pose proof (d_s _ _ _ _ _ Dm) as Es. pose proof (d_e _ _ _ _ _ Dm) as Ee. assert (size g = k) as Hk' by (unfold size; lia).
  destruct (slide_up_D m g A k B Dm L) as [[U _]|(A' & j & EA & El & U & Dm' & Kp)]; [lia|auto|]. right. cbv zeta in *.
  destruct (prev_D mo go Ao ko Bo Do) as [[E0 _]|(Ao' & jo & EAo & P & Do')].
  { exfalso. subst A Ao. rewrite !nfalse_app in N1. cbn in N1. lia. }
  do 3 eexists. split; [exact U|]. split; [exact P|]. split.
  - exists A', (j + k), (false :: B), Ao', jo, (false :: repeat true ko ++ Bo). split; auto. split; auto. subst A Ao. rewrite !nfalse_app, !nfalse_true in N1. cbn in N1.
    split; [lia|]. split; [cbn; unfold nfalse in *; cbn; rewrite filter_app, app_length; fold (nfalse (repeat true ko)); rewrite nfalse_true; unfold nfalse; lia|]. split; [congruence|]. split; auto.
    rewrite <- L, (d_m _ _ _ _ _ Dm), !app_length, !repeat_length. cbn. lia.
  - unfold size. cbn [g_start g_end]. subst A. rewrite !app_length, repeat_length in *. cbn in *. split; [lia|]. split; auto. lia.
Qed.
Lemma down_step K t m g go : Inv K t (m, g, go) -> 1 <= size g ->
  slide_down hs m g = Ok None \/
  exists m' g' go', slide_down hs m g = Ok (Some (m', g')) /\ group_next mo go = Ok (Some go') /\ Inv K t (m', g', go') /\ size g <= size g' /\ g_end g < g_end g' /\
    (size g' = size g -> g_end g' = S (g_end g) /\ slide_up hs m' g' = Ok (Some (m, g)) /\ group_previous mo go' = Ok (Some go)).
Proof.
  intros (A & k & B & Ao & ko & Bo & Dm & Do & N1 & N2 & Hk & L & T) Hs.
  pose proof (d_s _ _ _ _ _ Dm) as Es. pose proof (d_e _ _ _ _ _ Dm) as Ee. assert (size g = k) as Hk' by (unfold size; lia).
  destruct (slide_down_D m g A k B Dm L) as [U|(j & B' & EB & Er & Eq & U & Dm' & Kp)]; [lia|auto|]. right. cbv zeta in *.
  destruct (next_D mo go Ao ko Bo Do) as [[E0 _]|(jo & Bo' & EBo & P & Do')].
  { exfalso. subst B Bo. cbn in N2. unfold nfalse in N2. cbn in N2. lia. }
  do 3 eexists. split; [exact U|]. split; [exact P|].
  assert (Lm' : length ((A ++ [false]) ++ repeat true (k + j) ++ B') = length hs) by (rewrite <- L, (d_m _ _ _ _ _ Dm); subst B; rewrite !app_length; cbn; rewrite !app_length, !repeat_length; lia).
  split.
  - exists (A ++ [false]), (k + j), B', (Ao ++ repeat true ko ++ [false]), jo, Bo'. split; auto. split; auto. subst B Bo. rewrite !nfalse_app, nfalse_true.
    change (nfalse (false :: repeat true j ++ B')) with (nfalse ([false] ++ repeat true j ++ B')) in N2. change (nfalse (false :: repeat true jo ++ Bo')) with (nfalse ([false] ++ repeat true jo ++ Bo')) in N2. rewrite !nfalse_app, !nfalse_true in N2.
    change (ntrue (false :: repeat true j ++ B')) with (ntrue ([false] ++ repeat true j ++ B')) in T. rewrite !ntrue_app in T.
    split; [lia|]. split; [lia|]. split; [congruence|]. split; [auto|lia].
  - unfold size. cbn [g_start g_end]. split; [lia|]. split; [lia|]. intros Hj. assert (j = 0) as -> by lia. split; [lia|]. rewrite !Nat.add_0_r in *. split.
    + destruct (slide_up_D _ _ _ _ _ Dm' Lm') as [[_ [W|W]]|(A2 & j2 & EA2 & El2 & U2 & _ & _)]; [lia|now destruct A| |].
      * exfalso. apply W. rewrite app_length. cbn [length]. replace (length A + 1 - 1) with (length A) by lia. rewrite Eq. f_equal. lia.
      * cbv zeta in U2. rewrite U2. rewrite app_assoc in EA2. apply app_inj_tail in EA2. destruct EA2 as [EA2 _].
        assert (j2 = 0) as ->. { destruct j2; auto. exfalso. rewrite <- repeat_snoc, app_assoc in EA2. destruct (d_l _ _ _ _ _ Dm) as [E|(A3 & E)]; rewrite E in EA2; [now destruct (A2 ++ repeat true j2)|apply app_inj_tail in EA2; destruct EA2; discriminate]. }
        cbn [repeat] in EA2. rewrite app_nil_r in EA2. subst A2. cbn [Nat.add]. do 3 f_equal.
        -- rewrite (d_m _ _ _ _ _ Dm), EB. reflexivity.
        -- destruct g as [s e]. cbn in *. f_equal; lia.
    + destruct (prev_D _ _ _ _ _ Do') as [[E0 _]|(A2 & j2 & EA2 & U2 & _)]; [exfalso; now destruct Ao, ko|]. rewrite U2. rewrite !app_assoc in EA2. apply app_inj_tail in EA2. destruct EA2 as [EA2 _].
      assert (D2 : D mo (mkgroup (length A2) (length A2 + j2)) A2 j2 (false :: repeat true jo ++ Bo')) by (destruct (prev_D _ _ _ _ _ Do') as [[E0 _]|(A3 & j3 & EA3 & U3 & D3)]; [now destruct Ao, ko|]; assert (E4 : mkgroup (length A2) (length A2 + j2) = mkgroup (length A3) (length A3 + j3)) by congruence; injection E4 as E4 E5; assert (j2 = j3) as -> by lia; assert (A2 = A3) as -> by (rewrite !app_assoc, EA2 in EA3; apply app_inj_tail in EA3; destruct EA3 as [EA3 _]; now apply app_inv_tail in EA3); exact D3).
      assert (E : forall x kx y ky, edge_l x -> edge_l y -> x ++ repeat true kx = y ++ repeat true ky -> x = y /\ kx = ky).
      { clear. induction kx as [|kx IH]; intros y [|ky] Ex Ey E; cbn [repeat] in E; rewrite ?app_nil_r in E; auto.
        - exfalso. change (true :: repeat true ky) with (repeat true (S ky)) in E. rewrite <- repeat_snoc, app_assoc in E. destruct Ex as [->|(x' & ->)]; [now destruct (y ++ repeat true ky)|apply app_inj_tail in E; destruct E; discriminate].
        - exfalso. change (true :: repeat true kx) with (repeat true (S kx)) in E. rewrite <- repeat_snoc, app_assoc in E. destruct Ey as [->|(x' & ->)]; [now destruct (x ++ repeat true kx)|apply app_inj_tail in E; destruct E; discriminate].
        - change (true :: repeat true kx) with (repeat true (S kx)) in E. change (true :: repeat true ky) with (repeat true (S ky)) in E. rewrite <- !repeat_snoc, !app_assoc in E. apply app_inj_tail in E. destruct E as [E _]. destruct (IH _ _ Ex Ey E) as [-> ->]. auto. }
      destruct (E Ao ko A2 j2) as [<- <-]; auto; [apply (d_l _ _ _ _ _ Do)|apply (d_l _ _ _ _ _ D2)|]. do 2 f_equal. destruct go as [s e]. pose proof (d_s _ _ _ _ _ Do). pose proof (d_e _ _ _ _ _ Do). cbn in *. f_equal; lia.
Qed.

(** [undo n st st']: from [st'] sliding up [n] times leads back to [st]. *)
Inductive undo : nat -> state -> state -> Prop :=
| undo_0 st : undo 0 st st
| undo_S n st m g go m' g' go' : undo n st (m, g, go) -> slide_up hs m' g' = Ok (Some (m, g)) -> group_previous mo go' = Ok (Some go) -> g_end g' = S (g_end g) -> size g' = size g ->
    undo (S n) st (m', g', go').
Lemma undo_en n st st' : undo n st st' -> en st' = en st + n /\ sz st' = sz st.
Proof. induction 1; unfold en, sz in *; cbn in *; lia. Qed.
(** The state in which the group was last beside a group of the other file, if there was one. *)
Definition seen (em : option nat) (st : state) : Prop := em = None \/ exists n st', undo n st' st /\ empty_group (snd st') = false.

Lemma all_up_spec K t fuel : forall st, Inv K t st -> 1 <= sz st -> en st <= fuel -> exists st', all_up fuel hs mo st = Ok st' /\ Inv K t st' /\ sz st <= sz st'.
Proof.
  induction fuel as [|f IH]; intros [[m g] go] H Hs F; cbn [all_up].
  - unfold en in F. cbn in F. destruct (up_step K t m g go H Hs) as [->|(m' & g' & go' & -> & -> & H' & S' & E' & E2)]; cbn [bindr]; [eauto|lia].
  - destruct (up_step K t m g go H Hs) as [->|(m' & g' & go' & -> & -> & H' & S' & E' & E2)]; cbn [bindr]; [eauto|].
    destruct (IH (m', g', go') H') as (st' & -> & I' & Z'); unfold sz, en in *; cbn in *; try lia. exists st'. split; auto. split; auto. lia.
Qed.
Lemma all_down_spec K t fuel : forall (b : Prop) st em st0, Inv K t st -> 1 <= sz st -> length hs - en st <= fuel -> (b -> (exists n, undo n st0 st) /\ seen em st) ->
  exists st' em', all_down fuel hs mo st em = Ok (st', em') /\ Inv K t st' /\ sz st <= sz st' /\ (b -> sz st' = sz st -> (exists n, undo n st0 st') /\ seen em' st').
Proof.
  induction fuel as [|f IH]; intros b [[m g] go] em st0 H Hs F U; cbn [all_down].
  - destruct (down_step K t m g go H Hs) as [->|(m' & g' & go' & -> & -> & H' & S' & E' & E2)]; cbn [bindr]; [do 2 eexists; split; [reflexivity|]; split; auto|].
    exfalso. destruct (Inv_bounds _ _ _ H') as [_ B]. unfold en in *. cbn in *. lia.
  - destruct (down_step K t m g go H Hs) as [->|(m' & g' & go' & -> & -> & H' & S' & E' & E2)]; cbn [bindr]; [do 2 eexists; split; [reflexivity|]; split; auto|].
    edestruct (IH (b /\ size g' = size g) (m', g', go') (if empty_group go' then em else Some (g_end g')) st0) as (st' & em' & -> & I' & Z' & R'); auto.
    * unfold sz in *. cbn in *. lia.
    * unfold en in *. cbn in *. lia.
    * intros [Hb Es]. destruct (U Hb) as [[n0 U0] Se]. destruct (E2 Es) as (E3 & E4 & E5). split; [exists (S n0); econstructor; eauto|].
      destruct (empty_group go') eqn:Eg; [|right; exists 0, (m', g', go'); split; [constructor|auto]]. destruct Se as [->|(n & st' & U' & Q)]; [now left|]. right. exists (S n), st'. split; auto. econstructor; eauto.
    * do 2 eexists. split; [reflexivity|]. unfold sz in *. cbn in *. split; auto. split; [lia|]. intros Hb Ez. apply R'; [split; auto; lia|lia].
Qed.
Lemma shift_loop_spec K t fuel : forall st, Inv K t st -> 1 <= sz st -> length hs - sz st <= fuel ->
  exists st' e em gs, shift_loop fuel hs mo st = Ok (st', e, em, gs) /\ Inv K t st' /\ 1 <= sz st' /\ seen em st' /\ exists st1 n, undo n st1 st' /\ en st1 = e.
Proof.
  induction fuel as [|f IH]; intros [[m g] go] H Hs F; cbn [shift_loop].
  all: destruct (Inv_bounds _ _ _ H) as [B1 B2]; destruct (all_up_spec K t (length hs) (m, g, go) H Hs) as ([[m1 g1] go1] & -> & I1 & Z1); auto; cbn [bindr].
  all: edestruct (all_down_spec K t (length hs) True (m1, g1, go1) (if empty_group go1 then None else Some (g_end g1)) (m1, g1, go1) I1) as ([[m2 g2] go2] & em2 & -> & I2 & Z2 & R2); [lia|lia| |].
  all: try (intros _; split; [exists 0; constructor|]; destruct (empty_group go1) eqn:Eg; [now left|right; exists 0, (m1, g1, go1); split; [constructor|auto]]).
  all: cbn [bindr]; destruct (Nat.eqb_spec (g_end g - g_start g) (g_end g2 - g_start g2)) as [Eq|N].
  all: try (destruct R2 as [[n U] Se]; auto; [unfold sz, size in *; cbn in *; lia|]; do 4 eexists; split; [reflexivity|]; split; auto; split; [lia|]; split; auto; exists (m1, g1, go1), n; auto).
  - exfalso. destruct (Inv_bounds _ _ _ I2) as [B3 B4]. unfold sz, size in *. cbn in *. lia.
  - apply IH; auto; [lia|]. unfold sz, size in *. cbn in *. lia.
Qed.
Lemma undo_inv n st0 m g go : undo (S n) st0 (m, g, go) -> exists m' g' go', slide_up hs m g = Ok (Some (m', g')) /\ group_previous mo go = Ok (Some go') /\ undo n st0 (m', g', go').
Proof. intros H. inversion H; subst. eauto 8. Qed.
Lemma back_to_match_spec K t n : forall fuel st st0, Inv K t st -> 1 <= sz st -> undo n st0 st -> empty_group (snd st0) = false -> n <= fuel ->
  exists st', back_to_match fuel hs mo st = Ok st' /\ Inv K t st' /\ 1 <= sz st'.
Proof.
  induction n as [|n IH]; intros fuel [[m g] go] st0 H Hs U Q F.
  - inversion U; subst. cbn in Q. destruct fuel; cbn [back_to_match]; rewrite Q; eauto.
  - destruct fuel as [|f]; [lia|]. cbn [back_to_match]. destruct (empty_group go); [|eauto]. destruct (undo_inv _ _ _ _ _ U) as (m' & g' & go' & E1 & E2 & U'). 
    destruct (up_step K t m g go H Hs) as [E|(m1 & g1 & go1 & E3 & E4 & I' & S' & _)]; [congruence|]. rewrite E1, E2 in *. assert (m1 = m' /\ g1 = g' /\ go1 = go') as (-> & -> & ->) by (repeat split; congruence). cbn [bindr].
    eapply IH; eauto; try lia. unfold sz in *. cbn in *. lia.
Qed.
Lemma back_to_shift_spec K t best n : forall fuel st st0, Inv K t st -> 1 <= sz st -> undo n st0 st -> en st0 <= best -> n <= fuel ->
  exists st', back_to_shift fuel hs mo best st = Ok st' /\ Inv K t st' /\ 1 <= sz st'.
Proof.
  induction n as [|n IH]; intros fuel [[m g] go] st0 H Hs U Q F.
  - inversion U; subst. unfold en in Q. cbn in Q. destruct fuel; cbn [back_to_shift]; (destruct (Nat.ltb_spec best (g_end g)); [lia|]); eauto.
  - destruct fuel as [|f]; [lia|]. cbn [back_to_shift]. destruct (best <? g_end g); [|eauto]. destruct (undo_inv _ _ _ _ _ U) as (m' & g' & go' & E1 & E2 & U'). 
    destruct (up_step K t m g go H Hs) as [E|(m1 & g1 & go1 & E3 & E4 & I' & S' & _)]; [congruence|]. rewrite E1, E2 in *. assert (m1 = m' /\ g1 = g' /\ go1 = go') as (-> & -> & ->) by (repeat split; congruence). cbn [bindr].
    eapply IH; eauto; try lia. unfold sz in *. cbn in *. lia.
Qed.
Lemma best_loop_ge better gs lo n : forall shift best, lo <= shift -> (forall b, best = Some b -> lo <= b) -> (best = None -> 1 <= n) ->
  exists b, best_loop n better gs shift best = Some b /\ lo <= b.
Proof.
  induction n as [|n IH]; intros shift best L B N; cbn [best_loop].
  - destruct best as [b|]; [eauto|]. specialize (N eq_refl). lia.
  - apply IH; [lia| |]; destruct best as [b|]; try destruct (better gs shift b); try discriminate; intros b' Eb; try (injection Eb as <-); auto.
Qed.
Lemma best_shift_ge better e gs ge : e <= ge -> e <= best_shift better e gs ge.
Proof.
  intros L. unfold best_shift. cbv zeta. set (sh := Nat.max (Nat.max e (ge - gs - 1)) (ge - 100)). assert (e <= sh <= ge) by lia. clearbody sh.
  destruct (best_loop_ge better gs e (S ge - sh) sh None) as (b & -> & Q); try lia; auto. discriminate.
Qed.

Lemma compact_loop_spec indent better K fuel : forall m g go A k B Ao ko Bo, D m g A k B -> D mo go Ao ko Bo -> nfalse A = nfalse Ao -> nfalse B = nfalse Bo -> kept m hs = K -> length m = length hs ->
  (k + ntrue B) * (length hs + 1) + (length hs - g_start g) < fuel ->
  exists m', compact_loop fuel indent better hs mo (m, g, go) = Ok m' /\ kept m' hs = K /\ length m' = length hs.
Proof.
  induction fuel as [|f IH]; intros m g go A k B Ao ko Bo Dm Do N1 N2 Hk L F; [lia|]. cbn [compact_loop].
  pose proof (d_s _ _ _ _ _ Dm) as Es. pose proof (d_e _ _ _ _ _ Dm) as Ee.
  assert (I0 : Inv K (ntrue B) (m, g, go)) by (exists A, k, B, Ao, ko, Bo; auto 10).
  (* after the group has been placed *)
  assert (Next : forall m g go t f', Inv K t (m, g, go) -> (t * (length hs + 1) + (length hs - S (g_end g)) < f' \/ g_end g = length hs) -> f' <= f ->
    exists m', (do p <- group_next m g;; do po <- group_next mo go;; match p with None => match po with None => Ok m | Some _ => Err EBUG end | Some g => match po with None => Err EBUG | Some go => compact_loop f indent better hs mo (m, g, go) end end) = Ok m' /\ kept m' hs = K /\ length m' = length hs).
  { clear - IH. intros m g go t f' (A & k & B & Ao & ko & Bo & Dm & Do & N1 & N2 & Hk & L & T) F Hf.
    destruct (next_D _ _ _ _ _ Dm) as [[EB ->]|(j & B' & EB & -> & Dm')]; destruct (next_D _ _ _ _ _ Do) as [[EBo ->]|(jo & Bo' & EBo & -> & Do')]; subst B Bo; cbn [bindr]; [eauto|cbn in N2; unfold nfalse in N2; cbn in N2; lia|cbn in N2; unfold nfalse in N2; cbn in N2; lia|].
    change (nfalse (false :: repeat true j ++ B')) with (nfalse ([false] ++ repeat true j ++ B')) in N2. change (nfalse (false :: repeat true jo ++ Bo')) with (nfalse ([false] ++ repeat true jo ++ Bo')) in N2. rewrite !nfalse_app, !nfalse_true in N2.
    change (ntrue (false :: repeat true j ++ B')) with (ntrue ([false] ++ repeat true j ++ B')) in T. rewrite !ntrue_app, ntrue_true in T. change (nfalse [false]) with 1 in N2. change (ntrue [false]) with 0 in T.
    eapply IH; [exact Dm'|exact Do'|rewrite !nfalse_app, !nfalse_true; lia|lia|exact Hk|exact L|]. cbn [g_start].
    assert (g_end g < length hs) by (rewrite <- L, (d_m _ _ _ _ _ Dm), (d_e _ _ _ _ _ Dm), !app_length, repeat_length; cbn; lia).
    destruct F as [F|F]; [|lia]. assert ((j + ntrue B') * (length hs + 1) <= t * (length hs + 1)) by (apply Nat.mul_le_mono_r; lia). lia. }
  assert (Ge : g_end g <= length hs) by (destruct (Inv_bounds _ _ _ I0); auto).
  unfold empty_group at 1. destruct (Nat.eqb_spec (g_end g) (g_start g)) as [E|N].
  - cbn [bindr]. assert (k = 0) as -> by lia. eapply (Next m g go _ f); eauto. cbn [Nat.add] in F. destruct (Nat.eq_dec (g_end g) (length hs)); [now right|left; lia].
  - assert (Hs : 1 <= sz (m, g, go)) by (unfold sz, size; cbn; lia).
    assert (Fin : forall m g go, Inv K (ntrue B) (m, g, go) -> exists m', (do p <- group_next m g;; do po <- group_next mo go;; match p with None => match po with None => Ok m | Some _ => Err EBUG end | Some g => match po with None => Err EBUG | Some go => compact_loop f indent better hs mo (m, g, go) end end) = Ok m' /\ kept m' hs = K /\ length m' = length hs).
    { intros m1 g1 go1 I1. eapply (Next m1 g1 go1 _ f); eauto. left. assert (Q : (k + ntrue B) * (length hs + 1) = ntrue B * (length hs + 1) + k * (length hs + 1)) by (rewrite Nat.mul_add_distr_r; lia). assert (1 * (length hs + 1) <= k * (length hs + 1)) by (apply Nat.mul_le_mono_r; lia). lia. }
    destruct (shift_loop_spec K (ntrue B) (length hs) (m, g, go) I0 Hs) as ([[m1 g1] go1] & e & em & gs & -> & I1 & Z1 & Se & st1 & n & U & Een); [lia|]. cbn [bindr].
    destruct (undo_en _ _ _ U) as [Ue _]. destruct (Inv_bounds _ _ _ I1) as [_ B1].
    destruct (g_end g1 =? e); [cbn [bindr]; apply Fin; auto|]. destruct em as [e'|].
    + destruct Se as [|(n' & st' & U' & Q)]; [discriminate|]. destruct (undo_en _ _ _ U') as [Ue' _].
      destruct (back_to_match_spec K (ntrue B) n' (length hs) (m1, g1, go1) st' I1 Z1 U' Q) as ([[m2 g2] go2] & -> & I2 & _); [lia|]. cbn [bindr]. apply Fin; auto.
    + destruct indent; [|cbn [bindr]; apply Fin; auto].
      destruct (back_to_shift_spec K (ntrue B) (best_shift better e gs (g_end g1)) n (length hs) (m1, g1, go1) st1 I1 Z1 U) as ([[m2 g2] go2] & -> & I2 & _); [|lia|cbn [bindr]; apply Fin; auto].
      rewrite Een. apply best_shift_ge. unfold en in *. cbn in *. lia.
Qed.
End Slide.

Theorem change_compact_spec indent better hs ho m mo : length m = length hs -> length mo = length ho -> kept m hs = kept mo ho ->
  exists m', change_compact indent better hs m mo = Ok m' /\ length m' = length hs /\ kept m' hs = kept m hs.
Proof.
  intros L Lo E. unfold change_compact. destruct (init_D m) as (g & k & B & -> & Dm). destruct (init_D mo) as (go & ko & Bo & -> & Do). cbn [bindr].
  assert (Nf : nfalse B = nfalse Bo).
  { assert (H : nfalse m = nfalse mo) by (rewrite <- (nfalse_kept m hs L), <- (nfalse_kept mo ho Lo); now rewrite E). rewrite (d_m _ _ _ _ _ Dm), (d_m _ _ _ _ _ Do) in H. cbn [app] in H. rewrite !nfalse_app, !nfalse_true in H. auto. }
  edestruct (compact_loop_spec hs mo indent better (kept m hs)) as (m' & -> & K & L'); eauto.
  assert (k + ntrue B <= length m). { rewrite (d_m _ _ _ _ _ Dm). cbn [app]. rewrite app_length, repeat_length. pose proof (ntrue_le B). lia. }
  rewrite L in *. assert ((k + ntrue B) * (length hs + 1) <= length hs * (length hs + 1)) by (apply Nat.mul_le_mono_r; lia). rewrite Nat.mul_add_distr_r with (p := length hs + 1). lia.
Qed.
