(** The directory and the last part of a path: the theorems. *)
From Verif Require Import Base Str DirnModel.

(** Slashes only; no slash. *)
Definition slashes (s : list Z) : Prop := Forall (fun c => c = ch "/") s.
Definition part (s : list Z) : Prop := s <> [] /\ Forall (fun c => c <> ch "/") s.

Lemma slash_iff c : slash c = true <-> c = ch "/".
Proof. exact (Z.eqb_eq c 47). Qed.
Lemma nth_mid (x : list Z) z y : nth (length x) (x ++ z :: y) 0 = z.
Proof. rewrite app_nth2 by lia. rewrite Nat.sub_diag. reflexivity. Qed.
(** Going back over [y] to [z]. *)
Lemma back_over c y : Forall (fun v => c v = true) y -> forall x z w, c z = false -> back c (x ++ z :: y ++ w) (length x + length y) = length x.
Proof.
  intros H. induction y as [|v y IH] using rev_ind; intros x z w Hz.
  - cbn [length app]. rewrite Nat.add_0_r. destruct x as [|u x]; [reflexivity|]. cbn [length back]. change (S (length x)) with (length (u :: x)). rewrite nth_mid, Hz. reflexivity.
  - apply Forall_app in H. destruct H as [H1 H2]. apply Forall_inv in H2. rewrite app_length. cbn [length]. replace (length x + (length y + 1))%nat with (S (length x + length y)) by lia. cbn [back].
    replace (nth (S (length x + length y)) (x ++ z :: (y ++ [v]) ++ w) 0) with v.
    + rewrite H2, <- app_assoc. apply IH; [exact H1|exact Hz].
    + replace (x ++ z :: (y ++ [v]) ++ w) with ((x ++ z :: y) ++ v :: w) by (rewrite <- !app_assoc; reflexivity).
      replace (S (length x + length y)) with (length (x ++ z :: y)) by (rewrite app_length; cbn [length]; lia). rewrite nth_mid. reflexivity.
Qed.
(** Going back over all of the path up to a position. *)
Lemma back_all c y : Forall (fun v => c v = true) y -> forall w, back c (y ++ w) (length y - 1) = O.
Proof.
  intros H. induction y as [|v y IH] using rev_ind; intros w; [reflexivity|]. apply Forall_app in H. destruct H as [H1 H2]. apply Forall_inv in H2. rewrite app_length. cbn [length]. replace (length y + 1 - 1)%nat with (length y) by lia.
  rewrite <- app_assoc. cbn [app]. specialize (IH H1 (v :: w)). destruct y as [|u y]; [reflexivity|]. cbn [length back]. change (S (length y)) with (length (u :: y)). rewrite nth_mid, H2. cbn [length Nat.sub] in IH. rewrite Nat.sub_0_r in IH. exact IH.
Qed.
Lemma back_start_over b : Forall (fun c => c <> ch "/") b -> forall x w, x = [] \/ (exists v, x = v ++ [47]) -> back_start (x ++ b ++ w) (length x + length b) = length x.
Proof.
  induction b as [|v b IH] using rev_ind; intros H x w Hx.
  - cbn [length]. rewrite Nat.add_0_r. destruct Hx as [->|[u ->]]; [reflexivity|]. rewrite app_length. cbn [length]. rewrite Nat.add_1_r. cbn [back_start]. rewrite <- app_assoc. cbn [app]. rewrite nth_mid. reflexivity.
  - apply Forall_app in H. destruct H as [H1 H2]. apply Forall_inv in H2. rewrite app_length. cbn [length]. replace (length x + (length b + 1))%nat with (S (length x + length b)) by lia. cbn [back_start].
    replace (x ++ (b ++ [v]) ++ w) with ((x ++ b) ++ v :: w) by (rewrite <- !app_assoc; reflexivity). replace (length x + length b)%nat with (length (x ++ b)) at 1 by apply app_length. rewrite nth_mid.
    destruct (slash v) eqn:E; [apply slash_iff in E; congruence|]. cbn [negb]. rewrite <- app_assoc. apply IH; assumption.
Qed.
Lemma slashes_true s : slashes s -> Forall (fun v => slash v = true) s.
Proof. apply Forall_impl. intros c H. apply slash_iff, H. Qed.
Lemma part_last b : part b -> exists b' z, b = b' ++ [z] /\ slash z = false.
Proof.
  intros [N H]. destruct (exists_last N) as (b' & z & ->). exists b', z. split; [reflexivity|]. apply Forall_app in H. destruct H as [_ H]. apply Forall_inv in H. destruct (slash z) eqn:E; [apply slash_iff in E; congruence|reflexivity].
Qed.
(** The end of a path without the slashes at its end. *)
Lemma back_end x b s : part b -> slashes s -> back slash (x ++ b ++ s) (length (x ++ b ++ s) - 1) = (length x + length b - 1)%nat.
Proof.
  intros Hb Hs. destruct (part_last b Hb) as (b' & z & -> & Hz). pose proof (back_over slash s (slashes_true s Hs) (x ++ b') z [] Hz) as B. rewrite app_nil_r in B.
  replace (x ++ (b' ++ [z]) ++ s) with ((x ++ b') ++ z :: s) by (rewrite <- !app_assoc; reflexivity). rewrite !app_length in *. cbn [length]. replace (length x + length b' + S (length s) - 1)%nat with (length x + length b' + length s)%nat by lia. rewrite B. lia.
Qed.

(** The last part. *)
Theorem C78_basename x b s : part b -> slashes s -> x = [] \/ (exists v, x = v ++ bs "/") -> basename (x ++ b ++ s) = b.
Proof.
  intros Hb Hs Hx. pose proof (back_end x b s Hb Hs) as E. assert (Lb : (1 <= length b)%nat) by (destruct Hb as [N _]; destruct b; [congruence|cbn; lia]).
  unfold basename. destruct (x ++ b ++ s) as [|c0 r0] eqn:EP; [apply app_eq_nil in EP; destruct EP as [_ EP]; apply app_eq_nil in EP; destruct EP as [-> _]; cbn in Lb; lia|]. rewrite <- EP in *. clear EP c0 r0. cbv zeta. rewrite E.
  assert (NS : ((length x + length b - 1 =? 0)%nat && slash (nth (length x + length b - 1) (x ++ b ++ s) 0)) = false).
  { destruct (part_last b Hb) as (b' & z & -> & Hz). replace (x ++ (b' ++ [z]) ++ s) with ((x ++ b') ++ z :: s) by (rewrite <- !app_assoc; reflexivity). replace (length x + length (b' ++ [z]) - 1)%nat with (length (x ++ b')) at 2 by (rewrite !app_length; cbn [length]; lia).
    rewrite nth_mid, Hz. apply andb_false_r. }
  rewrite NS. destruct (part_last b Hb) as (b' & z & Eb & Hz). assert (Hb' : Forall (fun c => c <> ch "/") b') by (destruct Hb as [_ Hb]; rewrite Eb in Hb; apply Forall_app in Hb; apply Hb).
  assert (ES : back_start (x ++ b ++ s) (length x + length b - 1) = length x).
  { rewrite Eb. replace (length x + length (b' ++ [z]) - 1)%nat with (length x + length b')%nat by (rewrite app_length; cbn [length]; lia). rewrite <- app_assoc. apply back_start_over; [exact Hb'|exact Hx]. }
  rewrite ES. replace (length x + length b - 1 - length x + 1)%nat with (length b) by lia. rewrite skipn_app, skipn_all, Nat.sub_diag. cbn [app skipn]. rewrite firstn_app, firstn_all, Nat.sub_diag. apply app_nil_r.
Qed.
(** The directory: what stands before the slashes before the last part; "/" if there are only slashes
    there, "." if there is nothing. *)
Theorem C78_dirname d t b s : d <> [] -> last d 0 <> ch "/" -> t <> [] -> slashes t -> part b -> slashes s -> dirname (d ++ t ++ b ++ s) = d.
Proof.
  intros Hd Hl Ht Hst Hb Hs. pose proof (back_end (d ++ t) b s Hb Hs) as E. rewrite <- app_assoc in E.
  destruct (exists_last Hd) as (d' & z & ->). rewrite last_last in Hl. destruct (exists_last Ht) as (t' & c & ->). apply Forall_app in Hst as Hst'. destruct Hst' as [Hst1 Hst2]. apply Forall_inv in Hst2. subst c.
  unfold dirname. destruct ((d' ++ [z]) ++ (t' ++ [ch "/"]) ++ b ++ s) as [|c0 r0] eqn:EP; [destruct d'; discriminate EP|]. rewrite <- EP in *. clear EP c0 r0. cbv zeta. rewrite E.
  assert (Hz : slash z = false) by (destruct (slash z) eqn:K; [apply slash_iff in K; congruence|reflexivity]).
  assert (Lb : (1 <= length b)%nat) by (destruct Hb as [N _]; destruct b; [congruence|cbn; lia]).
  assert (E2 : back (fun c => negb (slash c)) ((d' ++ [z]) ++ (t' ++ [ch "/"]) ++ b ++ s) (length ((d' ++ [z]) ++ t' ++ [ch "/"]) + length b - 1) = S (length d' + length t')).
  { replace ((d' ++ [z]) ++ (t' ++ [ch "/"]) ++ b ++ s) with ((d' ++ z :: t') ++ 47 :: b ++ s) by (rewrite <- !app_assoc; reflexivity).
    replace (length ((d' ++ [z]) ++ t' ++ [ch "/"]) + length b - 1)%nat with (length (d' ++ z :: t') + length b)%nat by (rewrite !app_length; cbn [length]; lia).
    rewrite back_over; [rewrite app_length; cbn [length]; lia| |reflexivity]. destruct Hb as [_ Hb]. revert Hb. apply Forall_impl. intros v Hv. destruct (slash v) eqn:K; [apply slash_iff in K; congruence|reflexivity]. }
  rewrite E2. cbn [Nat.eqb]. replace (S (length d' + length t') - 1)%nat with (length d' + length t')%nat by lia.
  replace ((d' ++ [z]) ++ (t' ++ [ch "/"]) ++ b ++ s) with (d' ++ z :: t' ++ 47 :: b ++ s) by (rewrite <- !app_assoc; reflexivity).
  rewrite (back_over slash t' (slashes_true t' Hst1) d' z (47 :: b ++ s) Hz). replace (d' ++ z :: t' ++ 47 :: b ++ s) with ((d' ++ [z]) ++ t' ++ 47 :: b ++ s) by (rewrite <- app_assoc; reflexivity).
  replace (length d' + 1)%nat with (length (d' ++ [z])) by (rewrite app_length; reflexivity). rewrite firstn_app, firstn_all, Nat.sub_diag. apply app_nil_r.
Qed.
(** No directory before the last part: "." without slashes before it, "/" with. *)
Lemma dir_len (b : list Z) : part b -> (1 <= length b)%nat.
Proof. intros [N _]. destruct b; [congruence|cbn; lia]. Qed.
Lemma part_true b : part b -> Forall (fun v => negb (slash v) = true) b.
Proof. intros [_ H]. revert H. apply Forall_impl. intros v Hv. destruct (slash v) eqn:K; [apply slash_iff in K; congruence|reflexivity]. Qed.
Theorem C78_dirname_none b s : part b -> slashes s -> dirname (b ++ s) = bs ".".
Proof.
  intros Hb Hs. pose proof (back_end [] b s Hb Hs) as E. cbn [app length Nat.add] in E. pose proof (dir_len b Hb).
  unfold dirname. destruct (b ++ s) as [|c0 r0] eqn:EP; [apply app_eq_nil in EP; destruct EP as [-> _]; cbn in *; lia|]. rewrite <- EP in *. cbv zeta. rewrite E.
  rewrite (back_all (fun c => negb (slash c)) b (part_true b Hb) s). cbn [Nat.eqb]. destruct b as [|v b]; [cbn in *; lia|]. cbn [app nth]. destruct Hb as [_ Hb]. apply Forall_inv in Hb. destruct (slash v) eqn:K; [apply slash_iff in K; congruence|reflexivity].
Qed.
Theorem C78_dirname_root t b s : t <> [] -> slashes t -> part b -> slashes s -> dirname (t ++ b ++ s) = bs "/".
Proof.
  intros Ht Hst Hb Hs. pose proof (back_end t b s Hb Hs) as E. pose proof (dir_len b Hb) as Lb.
  destruct (exists_last Ht) as (t' & c & ->). apply Forall_app in Hst as Hst'. destruct Hst' as [Hst1 Hst2]. apply Forall_inv in Hst2. subst c.
  unfold dirname. destruct ((t' ++ [ch "/"]) ++ b ++ s) as [|c0 r0] eqn:EP; [destruct t'; discriminate EP|]. rewrite <- EP in *. clear EP c0 r0. cbv zeta. rewrite E.
  assert (E2 : back (fun c => negb (slash c)) ((t' ++ [ch "/"]) ++ b ++ s) (length (t' ++ [ch "/"]) + length b - 1) = length t').
  { replace ((t' ++ [ch "/"]) ++ b ++ s) with (t' ++ 47 :: b ++ s) by (rewrite <- !app_assoc; reflexivity).
    replace (length (t' ++ [ch "/"]) + length b - 1)%nat with (length t' + length b)%nat by (rewrite !app_length; cbn [length]; lia).
    apply back_over; [exact (part_true b Hb)|reflexivity]. }
  rewrite E2. destruct t' as [|u t']; [reflexivity|]. cbn [length Nat.eqb].
  replace (((u :: t') ++ [ch "/"]) ++ b ++ s) with ((u :: t') ++ 47 :: b ++ s) by (rewrite <- !app_assoc; reflexivity).
  pose proof (back_all slash (u :: t') (slashes_true _ Hst1) (47 :: b ++ s)) as B. cbn [length] in B. rewrite B.
  cbn [app Nat.add firstn]. apply Forall_inv in Hst1. subst u. reflexivity.
Qed.
(** Only slashes, and no path at all. *)
Theorem C78_root s : s <> [] -> slashes s -> basename s = bs "/" /\ dirname s = bs "/".
Proof.
  intros N Hs. pose proof (back_all slash s (slashes_true s Hs) []) as B. rewrite app_nil_r in B.
  unfold basename, dirname. destruct s as [|c r]; [congruence|]. cbv zeta. rewrite B. apply Forall_inv in Hs. subst c. split; reflexivity.
Qed.
Theorem C78_empty : basename [] = bs "." /\ dirname [] = bs ".".
Proof. split; reflexivity. Qed.

(** Every path is one of these. *)
Lemma split_end (c : Z -> bool) (p : list Z) : exists x y, p = x ++ y /\ Forall (fun v => c v = true) y /\ (x = [] \/ exists x' z, x = x' ++ [z] /\ c z = false).
Proof.
  induction p as [|v p IH] using rev_ind; [exists [], []; repeat split; [constructor|left; reflexivity]|].
  destruct (c v) eqn:E.
  - destruct IH as (x & y & -> & H & K). exists x, (y ++ [v]). split; [symmetry; apply app_assoc|]. split; [apply Forall_app; split; [exact H|constructor; [exact E|constructor]]|exact K].
  - exists (p ++ [v]), []. split; [symmetry; apply app_nil_r|]. split; [constructor|right; exists p, v; split; [reflexivity|exact E]].
Qed.
Theorem C78_paths p :
  p = [] \/ (p <> [] /\ slashes p) \/
  (exists b s, part b /\ slashes s /\ p = b ++ s) \/
  (exists t b s, t <> [] /\ slashes t /\ part b /\ slashes s /\ p = t ++ b ++ s) \/
  (exists d t b s, d <> [] /\ last d 0 <> ch "/" /\ t <> [] /\ slashes t /\ part b /\ slashes s /\ p = d ++ t ++ b ++ s).
Proof.
  assert (F1 : forall y, Forall (fun v => slash v = true) y -> slashes y) by (intros y; apply Forall_impl; intros v; apply slash_iff).
  assert (F2 : forall y, Forall (fun v => negb (slash v) = true) y -> Forall (fun c => c <> ch "/") y).
  { intros y. apply Forall_impl. intros v Hv K. apply slash_iff in K. rewrite K in Hv. discriminate. }
  destruct (split_end slash p) as (x & s & -> & Hs & [->|(x' & z & -> & Hz)]).
  - destruct s as [|c s]; [left; reflexivity|right; left; split; [discriminate|apply F1, Hs]].
  - right; right. destruct (split_end (fun c => negb (slash c)) (x' ++ [z])) as (w & b & Ew & Hb & K).
    assert (Pb : part b).
    { split; [|apply F2, Hb]. intros ->. rewrite app_nil_r in Ew. destruct K as [->|(w' & u & -> & Hu)]; [destruct x'; discriminate|]. apply app_inj_tail in Ew. destruct Ew as [_ <-]. rewrite Hz in Hu. discriminate. }
    rewrite Ew. destruct K as [->|(w' & u & -> & Hu)]; [left; exists b, s; repeat split; [apply Pb|apply Pb|apply F1, Hs]|].
    right. apply negb_false_iff in Hu. destruct (split_end slash (w' ++ [u])) as (d & t & Ed & Ht & K).
    assert (Nt : t <> []).
    { intros ->. rewrite app_nil_r in Ed. destruct K as [->|(d' & v & -> & Hv)]; [destruct w'; discriminate|]. apply app_inj_tail in Ed. destruct Ed as [_ <-]. congruence. }
    rewrite Ed. destruct K as [->|(d' & v & -> & Hv)]; [left; exists t, b, s|right; exists (d' ++ [v]), t, b, s].
    + repeat split; [exact Nt|apply F1, Ht|apply Pb|apply Pb|apply F1, Hs|symmetry; apply app_assoc].
    + split; [destruct d'; discriminate|]. split; [rewrite last_last; intros K; apply slash_iff in K; congruence|]. split; [exact Nt|]. split; [apply F1, Ht|]. split; [exact Pb|]. split; [apply F1, Hs|]. rewrite <- !app_assoc. reflexivity.
Qed.

(** Concrete cases. *)
Example C78_ex1 : basename (bs "a//b/") = bs "b" /\ dirname (bs "a//b/") = bs "a". Proof. split; reflexivity. Qed.
Example C78_ex2 : basename (bs "//b") = bs "b" /\ dirname (bs "//b") = bs "/". Proof. split; reflexivity. Qed.
Example C78_ex3 : basename (bs "/a/bc") = bs "bc" /\ dirname (bs "/a/bc") = bs "/a" /\ dirname (bs "bc/") = bs "." /\ dirname (bs "//") = bs "/". Proof. repeat split; reflexivity. Qed.
Example C78_hyps : part (bs "b") /\ slashes (bs "//") /\ last (bs "/a") 0 <> ch "/".
Proof. split; [split; [discriminate|repeat constructor; discriminate]|]. split; [repeat constructor|discriminate]. Qed.

Print Assumptions C78_basename.
Print Assumptions C78_dirname.
Print Assumptions C78_dirname_none.
Print Assumptions C78_dirname_root.
Print Assumptions C78_root.
Print Assumptions C78_paths.
