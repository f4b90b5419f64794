(** Byte strings: literals, prefix/suffix/substring, splitting and joining. *)
From Verif Require Import Base.
From Coq Require Export Ascii String.
Export Coq.Init.Datatypes.
Export List.
Export ListNotations.
Open Scope Z_scope.
Open Scope list_scope.

Definition ch (a : ascii) : Z := Z.of_N (N_of_ascii a).
Fixpoint bs (s : string) : list Z :=
  match s with EmptyString => [] | String a r => ch a :: bs r end.

Arguments bs s%string.
Arguments ch a%char.

(** C strings: no NUL, all bytes. *)
Definition cstr (s : list Z) : Prop := Forall (fun c => 0 < c < 256) s.

Definition starts_with (p s : list Z) : Prop := exists v, s = p ++ v.
Definition ends_with (p s : list Z) : Prop := exists u, s = u ++ p.
Definition contains (p s : list Z) : Prop := exists u v, s = u ++ p ++ v.

Fixpoint prefixb (p s : list Z) : bool :=
  match p, s with
  | [], _ => true
  | x :: p', y :: s' => (x =? y) && prefixb p' s'
  | _, [] => false
  end.
Lemma prefixb_spec p : forall s, prefixb p s = true <-> starts_with p s.
Proof.
  induction p as [|x p IH]; intros s; cbn.
  - split; [intros _; exists s; reflexivity|auto].
  - destruct s as [|y s]; cbn.
    + split; [discriminate|intros [v H]; discriminate].
    + rewrite andb_true_iff, Z.eqb_eq, IH. split.
      * intros [-> [v ->]]. exists v. reflexivity.
      * intros [v H]. injection H as -> ->. split; [reflexivity|exists v; reflexivity].
Qed.
Definition leqb (a b : list Z) : bool := if list_eq_dec Z.eq_dec a b then true else false.
Lemma leqb_spec a b : leqb a b = true <-> a = b.
Proof. unfold leqb. destruct (list_eq_dec _ a b); split; congruence. Qed.
Lemma leqb_refl a : leqb a a = true.
Proof. apply leqb_spec. reflexivity. Qed.

Lemma ends_with_skipn p s : (length p <= length s)%nat -> (skipn (length s - length p) s = p <-> ends_with p s).
Proof.
  intros H. split.
  - intros E. exists (firstn (length s - length p) s). rewrite <- E at 2. symmetry. apply firstn_skipn.
  - intros [u ->]. rewrite app_length. replace (length u + length p - length p)%nat with (length u) by lia.
    rewrite skipn_app, skipn_all, Nat.sub_diag. reflexivity.
Qed.
Lemma ends_with_len p s : ends_with p s -> (length p <= length s)%nat.
Proof. intros [u ->]. rewrite app_length. lia. Qed.
Lemma contains_cons2 a b x s : contains [a; b] (x :: s) <-> (x = a /\ exists r, s = b :: r) \/ contains [a; b] s.
Proof.
  split.
  - intros (u & v & H). destruct u as [|y u]; cbn in H.
    + injection H as -> ->. left. eauto.
    + injection H as -> ->. right. exists u, v. reflexivity.
  - intros [[-> [r ->]]|(u & v & ->)]; [exists [], r; reflexivity|exists (x :: u), v; reflexivity].
Qed.
Lemma contains_nil2 a b : ~ contains [a; b] [].
Proof. intros (u & v & H). destruct u; discriminate. Qed.

(** Splitting at a separator; always at least one piece. *)
Fixpoint split (c : Z) (s : list Z) : list (list Z) :=
  match s with
  | [] => [[]]
  | x :: r =>
      if x =? c then [] :: split c r
      else match split c r with p :: ps => (x :: p) :: ps | [] => [[x]] end
  end.
Fixpoint join (c : Z) (l : list (list Z)) : list Z :=
  match l with
  | [] => []
  | [p] => p
  | p :: r => p ++ c :: join c r
  end.
Lemma split_nonnil c s : split c s <> [].
Proof. destruct s as [|x r]; cbn; [discriminate|]. destruct (x =? c); [discriminate|]. destruct (split c r); discriminate. Qed.
Lemma join_cons c p r : r <> [] -> join c (p :: r) = p ++ c :: join c r.
Proof. destruct r; [congruence|reflexivity]. Qed.
Lemma join_split c s : join c (split c s) = s.
Proof.
  induction s as [|x r IH]; [reflexivity|]. cbn [split]. destruct (Z.eqb_spec x c) as [->|N].
  - rewrite join_cons by apply split_nonnil. cbn. congruence.
  - destruct (split c r) as [|p ps] eqn:E; [destruct (split_nonnil c r E)|]. destruct ps as [|q ps]; cbn in *; congruence.
Qed.
Lemma split_clean c s : Forall (fun p => ~ In c p) (split c s).
Proof.
  induction s as [|x r IH]; cbn; [constructor; [auto|constructor]|]. destruct (Z.eqb_spec x c) as [->|N].
  - constructor; [auto|exact IH].
  - destruct (split c r) as [|p ps]; [constructor; [intros [->|[]]; congruence|constructor]|].
    inversion IH; subst. constructor; [|assumption]. intros [->|H]; [congruence|auto].
Qed.
Lemma split_nosep c p : ~ In c p -> split c p = [p].
Proof.
  induction p as [|x p IH]; intros H; [reflexivity|]. cbn. destruct (Z.eqb_spec x c) as [->|N]; [exfalso; apply H; left; reflexivity|].
  rewrite IH; [reflexivity|]. intros Hin. apply H. right. exact Hin.
Qed.
Lemma split_app c p s : ~ In c p -> split c (p ++ c :: s) = p :: split c s.
Proof.
  induction p as [|x p IH]; intros H; cbn.
  - rewrite Z.eqb_refl. reflexivity.
  - destruct (Z.eqb_spec x c) as [->|N]; [exfalso; apply H; left; reflexivity|].
    rewrite IH; [reflexivity|]. intros Hin. apply H. right. exact Hin.
Qed.
Lemma split_join c l : l <> [] -> Forall (fun p => ~ In c p) l -> split c (join c l) = l.
Proof.
  induction l as [|p r IH]; intros Hn H; [congruence|]. inversion H; subst. destruct r as [|q r].
  - cbn. apply split_nosep. assumption.
  - rewrite join_cons by discriminate. rewrite split_app by assumption. rewrite IH; [reflexivity|discriminate|assumption].
Qed.
Lemma join_inj c l l' : l <> [] -> l' <> [] -> Forall (fun p => ~ In c p) l -> Forall (fun p => ~ In c p) l' -> join c l = join c l' -> l = l'.
Proof. intros. rewrite <- (split_join c l), <- (split_join c l') by assumption. congruence. Qed.
