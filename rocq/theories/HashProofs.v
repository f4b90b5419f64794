From Verif Require Import Base Arr HashModel HashSpec.
From Coq Require Import Znumtheory Zpow_facts.

(** *** Triangular probing visits every bucket *)
Fixpoint tri (s : nat) : nat := match s with O => 0 | S s' => (tri s' + S s')%nat end.
Lemma tri_double s : (2 * tri s = s * (s + 1))%nat.
Proof. induction s as [|s IH]; [reflexivity|]. cbn [tri]. lia. Qed.

Lemma maskn_mod i n m : n = (2 ^ m)%nat -> maskn i n = (i mod n)%nat.
Proof.
  intros ->. unfold maskn. rewrite <- Nat.land_ones. f_equal. rewrite Nat.ones_equiv. lia.
Qed.

Fixpoint ppos (h n s : nat) : nat := match s with O => maskn h n | S s' => maskn (ppos h n s' + S s') n end.
Lemma ppos_eq h n m s : n = (2 ^ m)%nat -> ppos h n s = ((h + tri s) mod n)%nat.
Proof.
  intros Hn. assert (n <> 0)%nat by (subst; apply Nat.pow_nonzero; lia).
  induction s as [|s IH]; cbn [ppos tri]; rewrite (maskn_mod _ n m Hn); [rewrite Nat.add_0_r; reflexivity|].
  rewrite IH. rewrite Nat.add_mod_idemp_l by assumption. f_equal. lia.
Qed.

Lemma pow2_div_odd_mul m a b : 0 <= m -> (2 ^ m | a * b) -> Z.odd a = true -> (2 ^ m | b).
Proof.
  intros Hm Hd Ho. apply Gauss with a; [exact Hd|].
  apply rel_prime_sym, rel_prime_Zpower_r; [exact Hm|].
  apply rel_prime_sym, prime_rel_prime; [apply prime_2|].
  intros [c Hc]. rewrite Hc, Z.odd_mul in Ho. cbn in Ho. rewrite andb_false_r in Ho. discriminate.
Qed.

Lemma tri_inj m s t : (s < 2 ^ m)%nat -> (t < 2 ^ m)%nat -> (s < t)%nat ->
  forall h, ((h + tri s) mod (2 ^ m) <> (h + tri t) mod (2 ^ m))%nat.
Proof.
  intros Hs Ht Hst h E.
  set (n := (2 ^ m)%nat) in *. assert (Hn0 : n <> 0%nat) by (apply Nat.pow_nonzero; lia).
  assert (Hn : Z.of_nat n = 2 ^ Z.of_nat m) by (unfold n; rewrite Nat2Z.inj_pow; reflexivity).
  assert (Hd : (2 ^ (Z.of_nat m + 1) | (Z.of_nat t - Z.of_nat s) * (Z.of_nat t + Z.of_nat s + 1))).
  { assert (exists q, Z.of_nat (tri t) - Z.of_nat (tri s) = q * Z.of_nat n) as (q & Hq).
    { exists (Z.of_nat ((h + tri t) / n) - Z.of_nat ((h + tri s) / n)).
      pose proof (Nat.div_mod (h + tri t) n Hn0). pose proof (Nat.div_mod (h + tri s) n Hn0). nia. }
    exists q. rewrite Z.pow_add_r by lia. rewrite <- Hn. change (2 ^ 1) with 2.
    pose proof (tri_double s). pose proof (tri_double t).
    assert (2 * Z.of_nat (tri s) = Z.of_nat s * (Z.of_nat s + 1)) by lia.
    assert (2 * Z.of_nat (tri t) = Z.of_nat t * (Z.of_nat t + 1)) by lia. nia. }
  assert (Hpow : 2 ^ (Z.of_nat m + 1) = 2 * Z.of_nat n) by (rewrite Z.pow_add_r by lia; rewrite <- Hn; change (2 ^ 1) with 2; lia).
  destruct (Z.odd (Z.of_nat t - Z.of_nat s)) eqn:Ho.
  - apply pow2_div_odd_mul in Hd; [|lia|exact Ho]. apply Z.divide_pos_le in Hd; [|lia]. lia.
  - rewrite Z.mul_comm in Hd. apply pow2_div_odd_mul in Hd; [|lia|].
    + apply Z.divide_pos_le in Hd; [|lia]. lia.
    + replace (Z.of_nat t + Z.of_nat s + 1) with ((Z.of_nat t - Z.of_nat s) + (1 + 2 * Z.of_nat s)) by lia.
      rewrite Z.odd_add, Ho, Z.odd_add_mul_2. reflexivity.
Qed.

Lemma ppos_lt h n m s : n = (2 ^ m)%nat -> (ppos h n s < n)%nat.
Proof. intros Hn. rewrite (ppos_eq h n m s Hn). apply Nat.mod_upper_bound. subst. apply Nat.pow_nonzero. lia. Qed.

Lemma ppos_inj h n m s t : n = (2 ^ m)%nat -> (s < n)%nat -> (t < n)%nat -> ppos h n s = ppos h n t -> s = t.
Proof.
  intros Hn Hs Ht E. rewrite !(ppos_eq h n m _ Hn) in E. subst n.
  destruct (Nat.lt_trichotomy s t) as [L|[L|L]]; [|exact L|]; exfalso.
  - exact (tri_inj m s t Hs Ht L h E).
  - exact (tri_inj m t s Ht Hs L h (eq_sym E)).
Qed.

Lemma ppos_surj h n m i : n = (2 ^ m)%nat -> (i < n)%nat -> exists s, (s < n)%nat /\ ppos h n s = i.
Proof.
  intros Hn Hi.
  assert (Hincl : incl (seq 0 n) (map (ppos h n) (seq 0 n))).
  { apply NoDup_length_incl.
    - assert (Hnd : forall l, NoDup l -> (forall x, In x l -> (x < n)%nat) -> NoDup (map (ppos h n) l)).
      { induction l as [|x l IH]; intros Hd Hx; cbn; [constructor|]. inversion Hd; subst x0 l0. constructor.
        - rewrite in_map_iff. intros (y & E & Hy). apply (ppos_inj h n m) in E; auto.
          + subst. contradiction.
          + apply Hx; right; exact Hy.
          + apply Hx; left; reflexivity.
        - apply IH; [assumption|]. intros; apply Hx; right; assumption. }
      apply Hnd; [apply seq_NoDup|]. intros x Hx. apply in_seq in Hx. lia.
    - rewrite map_length, seq_length. lia.
    - intros x Hx. apply in_map_iff in Hx. destruct Hx as (s & <- & _). apply in_seq. split; [lia|]. cbn. apply (ppos_lt h n m s Hn). }
  assert (Hin : In i (seq 0 n)) by (apply in_seq; lia).
  apply Hincl in Hin. apply in_map_iff in Hin. destruct Hin as (s & E & Hs). apply in_seq in Hs. exists s. split; [lia|exact E].
Qed.
