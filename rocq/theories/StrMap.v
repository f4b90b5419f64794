(** The hash map of hashmap.h keyed by strings, seen as a partial function (from C08). *)
From Verif Require Import Base Str Arr HashModel HashSpec HashProofs HashProofs2 HashProofs3 HashProofs4.

Lemma leqb_sym a b : leqb a b = true -> leqb b a = true.
Proof. rewrite !leqb_spec. auto. Qed.
Lemma leqb_trans a b c : leqb a b = true -> leqb b c = true -> leqb a c = true.
Proof. rewrite !leqb_spec. congruence. Qed.

Definition sset {V} (S : list Z -> option V) (k : list Z) (v : option V) : list Z -> option V := fun n => if leqb n k then v else S n.

Section M.
  Context {V : Type} (hash : list Z -> nat).
  Notation tbl := (@table (list Z) V).
  Lemma leqb_hash a b : leqb a b = true -> hash a = hash b.
  Proof. rewrite leqb_spec. congruence. Qed.

  Record rep (t : tbl) (S : list Z -> option V) (c : nat) : Prop := {
    r_inv : inv hash leqb t;
    r_get : forall k, fget leqb (entries (slots t)) k = S k;
    r_len : (length (entries (slots t)) <= c)%nat;
    r_nb : (n_buckets t <= 4 + 4 * c)%nat }.

  Lemma rep_ext t S S' c : (forall k, S k = S' k) -> rep t S c -> rep t S' c.
  Proof. intros E [H1 H2 H3 H4]. constructor; auto. intros k. rewrite H2. apply E. Qed.
  Lemma rep_mono t S c c' : (c <= c')%nat -> rep t S c -> rep t S c'.
  Proof. intros E [H1 H2 H3 H4]. constructor; auto; lia. Qed.
  Lemma rep_init : rep hinit (fun _ => None) 0.
  Proof.
    constructor; cbn; auto.
    constructor; cbn; auto. intros i k v H. destruct i; discriminate.
  Qed.
  Lemma fget_perm (t : tbl) mp k : inv hash leqb t -> Permutation (entries (slots t)) mp -> fget leqb (entries (slots t)) k = fget leqb mp k.
  Proof.
    intros Hi Hp. pose proof (hget_spec hash leqb leqb_refl leqb_sym leqb_trans leqb_hash t k (entries (slots t)) Hi (Permutation_refl _)) as H1.
    pose proof (hget_spec hash leqb leqb_refl leqb_sym leqb_trans leqb_hash t k mp Hi Hp) as H2. congruence.
  Qed.
  Lemma fget_fdel (m : fmap (list Z) V) k n : fget leqb (fdel leqb m k) n = if leqb n k then None else fget leqb m n.
  Proof.
    unfold fdel. induction m as [|[a v] m IH]; cbn; [destruct (leqb n k); reflexivity|]. destruct (leqb a k) eqn:E; cbn [negb].
    - rewrite IH. destruct (leqb n k) eqn:F; [reflexivity|]. destruct (leqb a n) eqn:G; [|reflexivity].
      apply leqb_spec in E, G. subst. rewrite leqb_refl in F. discriminate.
    - cbn. destruct (leqb a n) eqn:G; [|exact IH]. apply leqb_spec in G. subst. rewrite E. reflexivity.
  Qed.
  Lemma fget_fput (m : fmap (list Z) V) k v n : fget leqb (fput leqb m k v) n = if leqb n k then Some v else fget leqb m n.
  Proof.
    unfold fput. cbn. destruct (leqb k n) eqn:E.
    - apply leqb_sym in E. rewrite E. reflexivity.
    - rewrite fget_fdel. destruct (leqb n k) eqn:F; [apply leqb_sym in F; congruence|reflexivity].
  Qed.
  Lemma fdel_len' (m : fmap (list Z) V) k : (length (fdel leqb m k) <= length m)%nat.
  Proof. unfold fdel. induction m as [|a m IH]; cbn; [lia|]. destruct (negb _); cbn; lia. Qed.

  Lemma rep_put t S c k v : rep t S c -> 4 + 4 * Z.of_nat (c + 1) <= 2 ^ 30 ->
    exists t', hput hash leqb t k v = Ok t' /\ rep t' (sset S k (Some v)) (c + 1).
  Proof.
    intros [Hi Hg Hl Hb] Hc. destruct (hput_spec hash leqb leqb_refl leqb_sym leqb_trans leqb_hash t k v (entries (slots t)) Hi) as (t' & E & H1 & H2 & H3); [lia|apply Permutation_refl|].
    exists t'. split; [exact E|]. pose proof (Permutation_length H2) as Hlen. unfold fput in Hlen. cbn [length] in Hlen. pose proof (fdel_len' (entries (slots t)) k). constructor.
    - exact H1.
    - intros n. rewrite (fget_perm t' _ n H1 H2), fget_fput, Hg. reflexivity.
    - lia.
    - pose proof (i_size _ _ _ Hi). lia.
  Qed.
  Lemma rep_hget t S c k : rep t S c -> hget hash leqb t k = Ok (S k).
  Proof. intros [Hi Hg Hl Hb]. rewrite (hget_spec hash leqb leqb_refl leqb_sym leqb_trans leqb_hash t k (entries (slots t)) Hi (Permutation_refl _)), Hg. reflexivity. Qed.
  Lemma rep_remove t S c k : rep t S c -> exists t', hremove hash leqb t k = Ok (match S k with Some _ => true | None => false end, t') /\ rep t' (sset S k None) c.
  Proof.
    intros [Hi Hg Hl Hb]. destruct (hremove_spec hash leqb leqb_refl leqb_sym leqb_trans leqb_hash t k (entries (slots t)) Hi (Permutation_refl _)) as (t' & E & H1 & H2 & H3).
    exists t'. rewrite Hg in E. split; [exact E|]. pose proof (Permutation_length H2) as Hlen. pose proof (fdel_len' (entries (slots t)) k). constructor.
    - exact H1.
    - intros n. rewrite (fget_perm t' _ n H1 H2), fget_fdel, Hg. reflexivity.
    - lia.
    - lia.
  Qed.
  Lemma rep_clear t S c : rep t S c -> rep (hclear t) (fun _ => None) c.
  Proof.
    intros [Hi Hg Hl Hb]. destruct (hclear_spec hash leqb t Hi) as (H1 & H2 & H3). constructor; auto; [intros k; rewrite H2; reflexivity|rewrite H2; cbn; lia|lia].
  Qed.
  Lemma rep_iter t S c : rep t S c -> exists l, hiter t = Ok l /\ NoDup (map fst l) /\ (length l <= c)%nat /\ forall k v, In (k, v) l <-> S k = Some v.
  Proof.
    intros [Hi Hg Hl Hb]. exists (entries (slots t)). split; [apply (hiter_spec hash leqb leqb_refl leqb_sym leqb_trans leqb_hash)|].
    pose proof (i_pu _ _ _ Hi) as Hu. split; [|split; [exact Hl|]].
    - clear -Hu. induction (entries (slots t)) as [|[k v] l IH]; cbn in *; constructor; [|apply IH, Hu].
      intros H. apply in_map_iff in H. destruct H as ([k' v'] & E & Hin). cbn in E. subst k'. destruct Hu as [Hu _]. specialize (Hu _ Hin). cbn in Hu. rewrite leqb_refl in Hu. discriminate.
    - intros k v. rewrite <- Hg. clear -Hu. induction (entries (slots t)) as [|[a w] l IH]; cbn in *; [split; [tauto|discriminate]|]. destruct Hu as [Hu1 Hu2].
      destruct (leqb a k) eqn:E.
      + apply leqb_spec in E. subst a. split; [|intros [= ->]; auto]. intros [[= ->]|H]; [reflexivity|]. specialize (Hu1 _ H). cbn in Hu1. rewrite leqb_refl in Hu1. discriminate.
      + rewrite <- (IH Hu2). split; [|auto]. intros [[= -> ->]|H]; [rewrite leqb_refl in E; discriminate|exact H].
  Qed.
End M.
