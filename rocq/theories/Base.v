(** Shared vocabulary: bytes, buffers, C outcomes, and arithmetic lemmas.
    Nothing in this file models a particular function of libgit2. *)
From Coq Require Export List ZArith Lia Bool Arith.
From Coq Require Export ZifyBool ZifyNat.
Export ListNotations.
Ltac Zify.zify_post_hook ::= Z.div_mod_to_equations.

Open Scope Z_scope.

(** Outcome of a C function: success, a reported error code, undefined
    behaviour (out-of-bounds access, over-wide shift, ...) or exhaustion of the
    fuel that bounds a loop in the model. *)
Inductive res (A : Type) : Type :=
| Ok (a : A)
| Err (code : Z)
| UB
| NoFuel.
Arguments Ok {A} a.
Arguments Err {A} code.
Arguments UB {A}.
Arguments NoFuel {A}.

Definition bindr {A B} (x : res A) (f : A -> res B) : res B :=
  match x with
  | Ok a => f a
  | Err c => Err c
  | UB => UB
  | NoFuel => NoFuel
  end.
Notation "'do' x <- e1 ;; e2" := (bindr e1 (fun x => e2))
  (at level 200, x pattern, e1 at level 100, e2 at level 200, right associativity).

(** Bytes. *)
Definition is_byte (b : Z) : Prop := 0 <= b < 256.
Definition bytes (l : list Z) : Prop := Forall is_byte l.
Definition is_byteb (b : Z) : bool := (0 <=? b) && (b <? 256).

(** Checked read of a buffer. *)
Definition rd (l : list Z) (i : nat) : res Z :=
  match nth_error l i with Some b => Ok b | None => UB end.

(** [sub l off len]: the slice [l[off .. off+len)]. *)
Definition sub {A} (l : list A) (off len : nat) : list A := firstn len (skipn off l).

(** Pointwise update of position [i]. *)
Fixpoint upd {A} (l : list A) (i : nat) (x : A) : list A :=
  match l, i with
  | [], _ => []
  | _ :: t, O => x :: t
  | h :: t, S i' => h :: upd t i' x
  end.

Definition two32 : Z := 4294967296.
Definition two64 : Z := 18446744073709551616.

(** *** Arithmetic lemmas *)

Lemma is_byteb_true b : is_byteb b = true <-> is_byte b.
Proof. unfold is_byteb, is_byte; lia. Qed.

Lemma land_ones x n : 0 <= n -> Z.land x (2 ^ n - 1) = x mod 2 ^ n.
Proof.
  intros Hn. rewrite <- (Z.land_ones x n Hn). f_equal.
  rewrite Z.ones_equiv. lia.
Qed.

Lemma land_127 x : Z.land x 127 = x mod 128.
Proof. exact (land_ones x 7 ltac:(lia)). Qed.

Lemma land_255 x : Z.land x 255 = x mod 256.
Proof. exact (land_ones x 8 ltac:(lia)). Qed.

Lemma land_15 x : Z.land x 15 = x mod 16.
Proof. exact (land_ones x 4 ltac:(lia)). Qed.

Lemma shiftr_div x n : 0 <= n -> Z.shiftr x n = x / 2 ^ n.
Proof. apply Z.shiftr_div_pow2. Qed.

Lemma shiftl_mul x n : 0 <= n -> Z.shiftl x n = x * 2 ^ n.
Proof. apply Z.shiftl_mul_pow2. Qed.

Lemma lor_disjoint a b n :
  0 <= n -> 0 <= a < 2 ^ n -> b mod 2 ^ n = 0 -> Z.lor a b = a + b.
Proof.
  intros Hn Ha Hb.
  rewrite <- Z.lxor_lor; [symmetry; apply Z.add_nocarry_lxor|].
  - apply Z.bits_inj'. intros k Hk. rewrite Z.land_spec, Z.bits_0.
    destruct (Z.lt_ge_cases k n) as [Hlt|Hge].
    + assert (Z.testbit b k = false) as ->; [|apply andb_false_r].
      rewrite <- (Z.mod_pow2_bits_low b n k) by lia. rewrite Hb. apply Z.bits_0.
    + assert (Z.testbit a k = false) as ->; [|reflexivity].
      rewrite <- (Z.mod_small a (2 ^ n)) by lia. apply Z.mod_pow2_bits_high; lia.
  - apply Z.bits_inj'. intros k Hk. rewrite Z.land_spec, Z.bits_0.
    destruct (Z.lt_ge_cases k n) as [Hlt|Hge].
    + assert (Z.testbit b k = false) as ->; [|apply andb_false_r].
      rewrite <- (Z.mod_pow2_bits_low b n k) by lia. rewrite Hb. apply Z.bits_0.
    + assert (Z.testbit a k = false) as ->; [|reflexivity].
      rewrite <- (Z.mod_small a (2 ^ n)) by lia. apply Z.mod_pow2_bits_high; lia.
Qed.

(** A decidable property of bytes holds for all bytes once it is checked on
    the 256 of them. *)
Definition all_bytes : list Z := map Z.of_nat (seq 0 256).
Lemma all_bytes_spec b : is_byte b <-> In b all_bytes.
Proof.
  unfold all_bytes, is_byte. rewrite in_map_iff. split.
  - intros H. exists (Z.to_nat b). rewrite in_seq. lia.
  - intros (n & Hn & Hin). rewrite in_seq in Hin. lia.
Qed.
Lemma byte_sweep (f : Z -> bool) :
  forallb f all_bytes = true -> forall b, is_byte b -> f b = true.
Proof.
  intros H b Hb. rewrite forallb_forall in H. apply H. now apply all_bytes_spec.
Qed.

(** *** List lemmas *)
Lemma upd_length {A} (l : list A) i x : length (upd l i x) = length l.
Proof. revert i; induction l as [|h t IH]; intros [|i]; simpl; auto. Qed.

Lemma upd_nth_eq {A} (l : list A) i x :
  (i < length l)%nat -> nth_error (upd l i x) i = Some x.
Proof.
  revert i; induction l as [|h t IH]; intros [|i] H; simpl in *; try lia; auto.
  apply IH; lia.
Qed.

Lemma upd_nth_neq {A} (l : list A) i j x :
  i <> j -> nth_error (upd l i x) j = nth_error l j.
Proof.
  revert i j; induction l as [|h t IH]; intros [|i] [|j] H; simpl; auto; try congruence.
Qed.

Lemma nth_error_upd {A} (l : list A) i j x :
  nth_error (upd l i x) j =
  if Nat.eqb i j then (if Nat.ltb i (length l) then Some x else None) else nth_error l j.
Proof.
  destruct (Nat.eqb_spec i j) as [->|Hij].
  - destruct (Nat.ltb_spec j (length l)).
    + now apply upd_nth_eq.
    + apply nth_error_None. rewrite upd_length. lia.
  - now apply upd_nth_neq.
Qed.

Lemma list_ext {A} (l1 l2 : list A) :
  (forall i, nth_error l1 i = nth_error l2 i) -> l1 = l2.
Proof.
  revert l2; induction l1 as [|a l1 IH]; intros [|b l2] H; auto.
  - specialize (H O); discriminate.
  - specialize (H O); discriminate.
  - f_equal.
    + specialize (H O). simpl in H. congruence.
    + apply IH. intros i. apply (H (S i)).
Qed.

Lemma sub_length {A} (l : list A) off len :
  (off + len <= length l)%nat -> length (sub l off len) = len.
Proof. intros H. unfold sub. rewrite firstn_length, skipn_length. lia. Qed.

Lemma nth_error_sub {A} (l : list A) off len i :
  nth_error (sub l off len) i = if Nat.ltb i len then nth_error l (off + i) else None.
Proof.
  unfold sub.
  assert (Hs : forall (l : list A) off i, nth_error (skipn off l) i = nth_error l (off + i)).
  { clear. intros l off. revert l. induction off as [|off IH]; intros l i; [reflexivity|].
    destruct l; simpl; [destruct i; reflexivity|apply IH]. }
  assert (Hf : forall (l : list A) n i,
             nth_error (firstn n l) i = if Nat.ltb i n then nth_error l i else None).
  { clear. intros l n. revert l. induction n as [|n IH]; intros l i.
    - destruct i; reflexivity.
    - destruct l as [|a l].
      + destruct i; simpl; [reflexivity|]. destruct (Nat.ltb _ _); reflexivity.
      + destruct i as [|i]; simpl; [reflexivity|]. rewrite IH. reflexivity. }
  rewrite Hf, Hs. reflexivity.
Qed.

Lemma sub_app_split {A} (l : list A) off n m :
  sub l off (n + m) = sub l off n ++ sub l (off + n) m.
Proof.
  apply list_ext. intros i.
  destruct (Nat.lt_ge_cases i (length (sub l off n))) as [H|H].
  - rewrite nth_error_app1 by exact H.
    rewrite !nth_error_sub.
    assert (i < n)%nat by (unfold sub in H; rewrite firstn_length in H; lia).
    destruct (Nat.ltb_spec i (n + m)), (Nat.ltb_spec i n); try lia; reflexivity.
  - rewrite nth_error_app2 by exact H. rewrite !nth_error_sub.
    unfold sub in *. rewrite firstn_length, skipn_length in *.
    destruct (Nat.le_gt_cases (length l) (off + n)) as [Hl|Hl].
    + assert (nth_error l (off + n + (i - Nat.min n (length l - off))) = None) as ->
        by (apply nth_error_None; lia).
      destruct (Nat.ltb_spec i (n + m)); [|destruct (Nat.ltb _ _); reflexivity].
      assert (nth_error l (off + i) = None) as -> by (apply nth_error_None; lia).
      destruct (Nat.ltb _ _); reflexivity.
    + replace (Nat.min n (length l - off)) with n in * by lia.
      replace (off + n + (i - n))%nat with (off + i)%nat by lia.
      destruct (Nat.ltb_spec i (n + m)), (Nat.ltb_spec (i - n) m); try lia; reflexivity.
Qed.

Lemma firstn_skipn_sub {A} (l : list A) n : l = firstn n l ++ skipn n l.
Proof. symmetry; apply firstn_skipn. Qed.

Lemma bytes_app l1 l2 : bytes (l1 ++ l2) <-> bytes l1 /\ bytes l2.
Proof. apply Forall_app. Qed.

(** Keep arithmetic folded under [simpl]/[cbn]. *)
Global Arguments Z.mul : simpl never.
Global Arguments Z.add : simpl never.
Global Arguments Z.sub : simpl never.
Global Arguments Z.pow : simpl never.
Global Arguments Z.modulo : simpl never.
Global Arguments Z.div : simpl never.
Global Arguments Z.land : simpl never.
Global Arguments Z.lor : simpl never.
Global Arguments Z.lxor : simpl never.
Global Arguments Z.shiftl : simpl never.
Global Arguments Z.shiftr : simpl never.
Global Arguments Z.of_nat : simpl never.
Global Arguments Z.to_nat : simpl never.

Lemma skipn_skipn {A} (x y : nat) (l : list A) : skipn x (skipn y l) = skipn (x + y) l.
Proof.
  revert l; induction y as [|y IH]; intros l; [rewrite Nat.add_0_r; reflexivity|].
  rewrite Nat.add_succ_r. destruct l; [cbn; apply skipn_nil|]. cbn. apply IH.
Qed.

(** Discharge [bytes] of a literal list. *)
Ltac bytes_tac := unfold bytes, is_byte; repeat (apply Forall_cons; [lia|]); apply Forall_nil.

Lemma Forall2_length {A B} (R : A -> B -> Prop) l1 l2 : Forall2 R l1 l2 -> length l1 = length l2.
Proof. induction 1; cbn; congruence. Qed.
