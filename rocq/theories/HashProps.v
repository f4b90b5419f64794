(** C08: a history of operations on a hash map gives the answers of a finite map. *)
From Verif Require Import Base Arr HashModel HashSpec HashProofs HashProofs2 HashProofs3 HashProofs4.

Section R.
  Context {K V : Type} (hash : K -> nat) (eqk : K -> K -> bool).

  (** One API call on the table. *)
  Definition hstep (t : @table K V) (o : hop K V) : res (table * hans V) :=
    match o with
    | HPut k v => do t' <- hput hash eqk t k v ;; Ok (t', RUnit)
    | HGet k => do r <- hget hash eqk t k ;; Ok (t, RVal r)
    | HContains k => do b <- hcontains hash eqk t k ;; Ok (t, RBool b)
    | HRemove k => do (b, t') <- hremove hash eqk t k ;; Ok (t', RBool b)
    | HClear => Ok (hclear t, RUnit)
    | HSize => Ok (t, RNat (size t))     (* hashmap.h:322-325 *)
    end.
  Fixpoint hrun (t : @table K V) (ops : list (hop K V)) : res (table * list (hans V)) :=
    match ops with
    | [] => Ok (t, [])
    | o :: r => do (t1, a) <- hstep t o ;; do (t2, l) <- hrun t1 r ;; Ok (t2, a :: l)
    end.

  Context (Erefl : forall a, eqk a a = true) (Esym : forall a b, eqk a b = true -> eqk b a = true)
          (Etrans : forall a b c, eqk a b = true -> eqk b c = true -> eqk a c = true)
          (Ehash : forall a b, eqk a b = true -> hash a = hash b).

  Lemma fdel_len (m : fmap K V) k : (length (fdel eqk m k) <= length m)%nat.
  Proof. unfold fdel. induction m as [|a m IH]; cbn; [lia|]. destruct (negb _); cbn; lia. Qed.

  Lemma hinit_inv : inv hash eqk (@hinit K V).
  Proof.
    constructor; cbn; auto.
    intros i k v H. destruct i; discriminate.
  Qed.

  Lemma hrun_spec : forall ops t mp c, inv hash eqk t -> Permutation (entries (slots t)) mp ->
    (length mp <= c)%nat -> (n_buckets t <= 4 + 4 * c)%nat -> 4 + 4 * Z.of_nat (c + length ops) <= 2 ^ 30 ->
    exists t', hrun t ops = Ok (t', snd (frun eqk mp ops)) /\ inv hash eqk t' /\
      Permutation (entries (slots t')) (fst (frun eqk mp ops)).
  Proof.
    induction ops as [|o ops IH]; intros t mp c Hi Hp Hc Hb Hbig; cbn [hrun frun].
    - exists t. auto.
    - pose proof (Permutation_length Hp) as Hlen. pose proof (i_size _ _ _ Hi) as Hsz. cbn [length] in Hbig.
      assert (Hstep : exists t1, hstep t o = Ok (t1, snd (fstep eqk mp o)) /\ inv hash eqk t1 /\
         Permutation (entries (slots t1)) (fst (fstep eqk mp o)) /\ (length (fst (fstep eqk mp o)) <= c + 1)%nat /\ (n_buckets t1 <= 4 + 4 * (c + 1))%nat).
      { destruct o as [k v|k|k|k| |]; cbn [hstep fstep fst snd].
        - destruct (hput_spec hash eqk Erefl Esym Etrans Ehash t k v mp Hi) as (t1 & -> & H1 & H2 & H3); [lia|exact Hp|].
          exists t1. cbn [bindr]. split; [reflexivity|]. split; [exact H1|]. split; [exact H2|]. split.
          + unfold fput. cbn [length]. pose proof (fdel_len mp k). lia.
          + lia.
        - rewrite (hget_spec hash eqk Erefl Esym Etrans Ehash t k mp Hi Hp). cbn [bindr]. exists t. repeat (split; [auto; lia|]). lia.
        - rewrite (hcontains_spec hash eqk Erefl Esym Etrans Ehash t k mp Hi Hp). cbn [bindr]. exists t. repeat (split; [auto; lia|]). lia.
        - destruct (hremove_spec hash eqk Erefl Esym Etrans Ehash t k mp Hi Hp) as (t1 & -> & H1 & H2 & H3). cbn [bindr]. exists t1.
          split; [reflexivity|]. split; [exact H1|]. split; [exact H2|]. pose proof (fdel_len mp k). lia.
        - destruct (hclear_spec hash eqk t Hi) as (H1 & H2 & H3). exists (hclear t). split; [reflexivity|]. split; [exact H1|].
          rewrite H2. split; [constructor|]. cbn [length]. lia.
        - exists t. split; [rewrite Hsz, Hlen; reflexivity|]. repeat (split; [auto; lia|]). lia. }
      destruct Hstep as (t1 & -> & H1 & H2 & H3 & H4). cbn [bindr].
      destruct (fstep eqk mp o) as [mp1 a]. cbn [fst snd] in *.
      destruct (IH t1 mp1 (c + 1)%nat H1 H2 H3 H4) as (t2 & -> & H5 & H6); [lia|]. cbn [bindr].
      destruct (frun eqk mp1 ops) as [mp2 l]. cbn [fst snd] in *. exists t2. auto.
  Qed.

  (** Every history of at most 2^28 - 1 calls on a fresh map, whatever the hash function
      and however it collides, gives the answers of a finite map, touches no slot outside
      the arrays and ends every probe loop; iterating the final table yields each entry of
      the final map exactly once. *)
  Theorem hashmap_history (ops : list (hop K V)) : 4 + 4 * Z.of_nat (length ops) <= 2 ^ 30 ->
    exists t, hrun hinit ops = Ok (t, snd (frun eqk [] ops)) /\
      exists l, hiter t = Ok l /\ Permutation l (fst (frun eqk [] ops)).
  Proof.
    intros H. destruct (hrun_spec ops hinit [] O hinit_inv) as (t & H1 & _ & H2); [constructor|cbn; lia|cbn; lia|lia|].
    exists t. split; [exact H1|]. exists (entries (slots t)). split; [apply (hiter_spec hash eqk Erefl Esym Etrans Ehash)|exact H2].
  Qed.

  (** The set flavour of the header: iterating a non-empty set never ends; the callback of
      [foreach] sees the first key again and again. *)
  Theorem hashset_foreach_refuted (ops : list (hop K V)) : 4 + 4 * Z.of_nat (length ops) <= 2 ^ 30 ->
    fst (frun eqk [] ops) <> [] ->
    exists t k, hrun hinit ops = Ok (t, snd (frun eqk [] ops)) /\
      forall fuel, set_foreach fuel t 0 = Ok (repeat k fuel, false).
  Proof.
    intros H Hne. destruct (hrun_spec ops hinit [] O hinit_inv) as (t & H1 & _ & H2); [constructor|cbn; lia|cbn; lia|lia|].
    destruct (entries (slots t)) as [|[k v] r] eqn:E; [apply Permutation_nil in H2; contradiction|].
    exists t, k. split; [exact H1|]. intros fuel. apply (set_foreach_loops hash eqk Erefl Esym Etrans Ehash t k v r); [lia|exact E].
  Qed.
End R.

(** Keys congruent mod 3 collide; the history grows the table from 4 to 8 and 16 buckets,
    deletes, reuses tombstones, overwrites and re-inserts. *)
Definition ex_ops : list (hop nat nat) :=
  map (fun i => HPut i (10 * i)%nat) (seq 0 9) ++
  [HRemove 3; HGet 6; HContains 3; HPut 3 77; HPut 5 88; HGet 3; HGet 5; HGet 100; HRemove 100; HSize; HClear; HGet 5; HPut 1 1; HSize]%nat.
Example ex_run : match hrun (fun k => Nat.modulo k 3) Nat.eqb hinit ex_ops with
  | Ok (t, l) => (n_buckets t, skipn 9 l) = (16%nat, [RBool true; RVal (Some 60%nat); RBool false; RUnit; RUnit; RVal (Some 77%nat);
      RVal (Some 88%nat); RVal None; RBool false; RNat 9; RUnit; RVal None; RUnit; RNat 1]) | _ => False end.
Proof. vm_compute. reflexivity. Qed.
Example ex_premise : forall a b, Nat.eqb a b = true -> Nat.modulo a 3 = Nat.modulo b 3.
Proof. intros a b H. apply Nat.eqb_eq in H. congruence. Qed.
Example ex_ne : fst (frun Nat.eqb [] ex_ops) <> [].
Proof. vm_compute. discriminate. Qed.
Print Assumptions hashmap_history.
Print Assumptions hashset_foreach_refuted.
