(** C17: reference-name validation and normalisation. *)
From Verif Require Import Base Str CStr RefnameModel RefnameSpec RefnameProofs RefnameProofs2.

(** A name is accepted exactly when the rules of [RefnameSpec] hold; the answer is always
    yes or no (no out-of-range read, no other error). *)
Theorem name_valid_exact (fl : rflags) (n : list Z) : f_novalidate fl = false ->
  (name_is_valid n fl = Ok true /\ refname_ok fl n) \/ (name_is_valid n fl = Ok false /\ ~ refname_ok fl n).
Proof.
  intros Hv. unfold name_is_valid. destruct (normalize_core false n fl Hv) as [[Hc ->]|[Hc ->]]; rewrite core_strict in Hc; auto.
Qed.

(** Normalisation succeeds exactly when the name neither starts nor ends with a slash and,
    once its empty components are dropped, satisfies the rules; the result is that
    squeezed name. *)
Theorem normalize_exact (fl : rflags) (n : list Z) : f_novalidate fl = false ->
  (normalize_name true n fl = Ok (squeeze n) /\ ~ starts_with (bs "/") n /\ ~ ends_with (bs "/") n /\ refname_ok fl (squeeze n)) \/
  (normalize_name true n fl = Err EINVALIDSPEC /\ ~ (~ starts_with (bs "/") n /\ ~ ends_with (bs "/") n /\ refname_ok fl (squeeze n))).
Proof.
  intros Hv.
  assert (Hst : n <> [] -> (hd 0 n <> 47 <-> ~ starts_with (bs "/") n)).
  { intros Hn. destruct n as [|c t]; [congruence|]. cbn [hd]. split; [intros N [v [= E _]]; cbn in E; lia|intros H ->; apply H; exists t; reflexivity]. }
  assert (Hen : n <> [] -> (last n 0 <> 47 <-> ~ ends_with (bs "/") n)).
  { intros Hn. destruct (exists_last Hn) as (l & z & ->). rewrite last_last. split; [intros N [u E]; apply app_inj_tail in E; destruct E as [_ E]; cbn in E; lia|].
    intros H ->. apply H. exists l. reflexivity. }
  destruct (normalize_core true n fl Hv) as [[Hc He]|[Hc He]]; rewrite core_norm, core_strict in Hc.
  - left. destruct Hc as (H1 & H2 & H3 & H4). split; [exact He|]. split; [apply Hst; assumption|]. split; [apply Hen; assumption|exact H4].
  - right. split; [exact He|]. intros (H1 & H2 & H3). apply Hc.
    assert (Hn : n <> []) by (intros ->; destruct H3 as [H3 _]; inversion H3 as [|? ? [E _] _]; congruence).
    split; [apply Hst; assumption|]. split; [exact Hn|]. split; [apply Hen; assumption|exact H3].
Qed.

(** A normalised name is valid and normalises to itself. *)
Theorem normalize_idempotent (fl : rflags) (n o : list Z) : f_novalidate fl = false ->
  normalize_name true n fl = Ok o -> name_is_valid o fl = Ok true /\ normalize_name true o fl = Ok o.
Proof.
  intros Hv H. destruct (normalize_exact fl n Hv) as [(E & _ & _ & Hok)|[E _]]; [|congruence].
  assert (o = squeeze n) by congruence. subst o.
  assert (Hvalid : name_is_valid (squeeze n) fl = Ok true) by (destruct (name_valid_exact fl (squeeze n) Hv) as [[A _]|[_ B]]; [exact A|contradiction]).
  split; [exact Hvalid|].
  assert (Hsq : squeeze (squeeze n) = squeeze n).
  { assert (Hall := proj1 Hok). unfold squeeze at 1. rewrite filter_all_true; [apply join_split|].
    apply forallb_forall. intros x Hx. rewrite Forall_forall in Hall. apply nempty_spec. apply (Hall x Hx). }
  destruct (normalize_exact fl (squeeze n) Hv) as [(E2 & _)|[_ E2]]; [congruence|]. exfalso. apply E2.
  apply core_strict in Hok. pose proof Hok as (H1 & H2 & _ & _ & _ & H6 & _). split; [|split].
  - intros [v Hs]. rewrite Hs in H1. apply H1. reflexivity.
  - intros [u Hs]. rewrite Hs in H6. change (bs "/") with [47] in H6. rewrite last_last in H6. congruence.
  - rewrite Hsq. apply core_strict, Hok.
Qed.

(** A valid name is its own normal form. *)
Theorem normalize_valid (fl : rflags) (n : list Z) : f_novalidate fl = false ->
  name_is_valid n fl = Ok true -> normalize_name true n fl = Ok n.
Proof.
  intros Hv H. destruct (name_valid_exact fl n Hv) as [[_ Hok]|[E _]]; [|congruence].
  assert (Hsq : squeeze n = n).
  { assert (Hall := proj1 Hok). unfold squeeze. rewrite filter_all_true; [apply join_split|].
    apply forallb_forall. intros x Hx. rewrite Forall_forall in Hall. apply nempty_spec. apply (Hall x Hx). }
  destruct (normalize_exact fl n Hv) as [(E2 & _)|[_ E2]]; [congruence|]. exfalso. apply E2.
  apply core_strict in Hok. pose proof Hok as (H1 & H2 & _ & _ & _ & H6 & _). split; [|split].
  - intros [v Hs]. rewrite Hs in H1. apply H1. reflexivity.
  - intros [u Hs]. rewrite Hs in H6. change (bs "/") with [47] in H6. rewrite last_last in H6. congruence.
  - rewrite Hsq. apply core_strict, Hok.
Qed.

(** The public function writes at most [bufsize] bytes: the normalised name and a NUL. *)
Theorem normalize_buffer_safe (bufsize : Z) (fl : rflags) (n : list Z) : f_novalidate fl = false -> 0 <= bufsize < two64 ->
  Z.of_nat (length n) < two64 - 1 ->
  match reference_normalize_name bufsize n fl with
  | Ok out => exists o, out = o ++ [0] /\ normalize_name true n fl = Ok o /\ Z.of_nat (length out) <= bufsize
  | Err _ => normalize_name true n fl = Err EINVALIDSPEC \/ Z.of_nat (length (squeeze n)) + 1 > bufsize
  | _ => False
  end.
Proof.
  intros Hv Hb Hl. unfold reference_normalize_name.
  destruct (normalize_exact fl n Hv) as [(E & _)|[E _]]; rewrite E; cbn [bindr]; [|left; reflexivity].
  unfold two64 in *. destruct (Z.gtb_spec (Z.of_nat (length (squeeze n))) ((bufsize - 1) mod 18446744073709551616)) as [G|G].
  - right. lia.
  - destruct (Z.eqb_spec bufsize 0) as [->|N]; [right; lia|].
    destruct (Z.leb_spec (Z.of_nat (length (squeeze n)) + 1) bufsize) as [L|L].
    + exists (squeeze n). rewrite app_length. cbn [length]. split; [reflexivity|]. split; [reflexivity|lia].
    + rewrite Z.mod_small in G by lia. lia.
Qed.

(** git's own rules forbid carets and the DEL byte anywhere in a name; libgit2's public
    [git_reference_name_is_valid] accepts both. *)
Theorem refname_git_rules_refuted :
  reference_name_is_valid (bs "^refs/heads/x") = Ok true /\
  reference_name_is_valid (bs "^") = Ok true /\
  reference_name_is_valid (bs "refs/heads/" ++ [127]) = Ok true.
Proof. vm_compute. auto. Qed.

(** Values from tests/libgit2/refs/normalize.c and isvalidname.c. *)
Definition NORMAL := mkf false false false false.
Definition ONE := mkf true false false false.
Definition PAT := mkf false true false false.
Example e1 : normalize_name true (bs "refs/heads//foo///bar") NORMAL = Ok (bs "refs/heads/foo/bar"). Proof. reflexivity. Qed.
Example e2 : normalize_name true (bs "refs/heads/v@ation") NORMAL = Ok (bs "refs/heads/v@ation"). Proof. reflexivity. Qed.
Example e3 : normalize_name true (bs "refs/heads/foo.lock") NORMAL = Err EINVALIDSPEC. Proof. reflexivity. Qed.
Example e4 : normalize_name true (bs "refs/*/foo/*") PAT = Err EINVALIDSPEC. Proof. reflexivity. Qed.
Example e5 : normalize_name true (bs "refs/*/foo") PAT = Ok (bs "refs/*/foo"). Proof. reflexivity. Qed.
Example e6 : reference_name_is_valid (bs "HEAD") = Ok true /\ reference_name_is_valid (bs "HEAD_") = Ok false /\ reference_name_is_valid (bs "one_level") = Ok false.
Proof. vm_compute. auto. Qed.
Example e7 : reference_name_is_valid (bs "refs/heads/one..two") = Ok false /\ reference_name_is_valid (bs "refs/heads/@{one") = Ok false /\ reference_name_is_valid (bs "HEAD/x") = Ok false.
Proof. vm_compute. auto. Qed.
Print Assumptions name_valid_exact.
Print Assumptions normalize_exact.
Print Assumptions normalize_idempotent.
Print Assumptions normalize_valid.
Print Assumptions normalize_buffer_safe.
Print Assumptions refname_git_rules_refuted.
