(** Mailmap files: the theorems. *)
From Verif Require Import Base Str MmapModel MmapSpec MmapProofs MmpModel MmpSpec MmpProofs.

(** A mailmap file means the additions its lines say, in their order; lines that say nothing are
    skipped. *)
Theorem C76_file text : ~ In 0 text -> exists os, Forall2 says_maybe (split 10 text) os /\ mm_from_buffer text = mm_adds [] (somes os).
Proof. intros H. exists (map line_of (split 10 text)). split; [apply lines_say|apply from_buffer_ok, H]. Qed.
(** A line says at most one thing. *)
Theorem C76_line_unique line a b : says line a -> says line b -> a = b.
Proof. rewrite !says_iff. intros [c1 H1] [c2 H2]. rewrite H1 in H2. injection H2 as E _. exact E. Qed.
(** Resolving with a mailmap file. *)
Theorem C76_file_resolve text os : ~ In 0 text -> Forall2 says_maybe (split 10 text) os -> Forall (fun a => a_email a <> []) (somes os) ->
  exists l, mm_from_buffer text = Ok l /\ forall name email, mm_resolve l name email = Ok (resolved (somes os) name email).
Proof.
  intros H F N. assert (E : os = map line_of (split 10 text)).
  { pose proof (lines_say (split 10 text)) as G. revert G. generalize (map line_of (split 10 text)) as os'. clear - F. induction F as [|l o ls os A _ IH]; intros os' G; inversion G as [|? o' ? os'' B G']; subst; [reflexivity|]. f_equal; [|apply IH, G'].
    unfold says_maybe in *. destruct o as [a|], o' as [b|]; try reflexivity; [f_equal; eapply C76_line_unique; eassumption|destruct (B a A)|destruct (A b B)]. }
  destruct (mm_adds_ok (somes os) N [] [] means_nil) as (l & El & M). exists l. rewrite from_buffer_ok, <- E by exact H. split; [exact El|]. intros name email. apply mm_resolve_ok. exact M.
Qed.
(** A text with a NUL is refused. *)
Theorem C76_nul text : In 0 text -> mm_from_buffer text = Err (-1).
Proof. intros H. unfold mm_from_buffer. replace (existsb (Z.eqb 0) text) with true; [reflexivity|]. symmetry. apply existsb_exists. exists 0. split; [exact H|reflexivity]. Qed.
(** Reading never leaves the text. *)
Theorem C76_safe text : (exists l, mm_from_buffer text = Ok l) \/ mm_from_buffer text = Err (-1).
Proof.
  destruct (in_dec Z.eq_dec 0 text) as [I|N]; [right; apply C76_nul, I|]. rewrite from_buffer_ok by exact N. generalize (somes (map line_of (split 10 text))). intros h.
  pose proof means_nil as M. revert M. generalize (@nil madd) as h0. generalize (@nil mment) as l. induction h as [|x h IH]; intros l h0 M; cbn [mm_adds]; [eauto|].
  destruct (a_email x) as [|c s] eqn:Ex; [right; reflexivity|]. destruct (mm_adds_ok [x] ltac:(constructor; [congruence|constructor]) l h0 M) as (l1 & E1 & M1). cbn [mm_adds] in E1. rewrite Ex in E1.
  destruct (mm_add l (a_rname x) (a_remail x) (a_name x) (c :: s)) as [l2| | |]; try discriminate. cbn [bindr] in *. injection E1 as ->. exact (IH l1 _ M1).
Qed.
(** One line with an empty email makes the whole file be refused, although lines that are no entry are
    skipped. *)
Theorem C76_empty_email_refuted : exists text, says (bs "Ann <ann@new> <ann@old>") (mkadd (Some (bs "Ann")) (Some (bs "ann@new")) (Some []) (bs "ann@old")) /\
  In (bs "Ann <ann@new> <ann@old>") (split 10 text) /\ mm_from_buffer text = Err (-1).
Proof.
  exists (bs "Ann <ann@new> <ann@old>" ++ [10] ++ bs "Bob <>" ++ [10]). split; [apply says_iff; exists []; vm_compute; reflexivity|]. split; [vm_compute; auto|vm_compute; reflexivity].
Qed.

(** *** A file *)
Definition file1 : list Z :=
  bs "# people" ++ [10] ++ bs "  Ann B <ann@old>   # moved" ++ [10] ++ bs "nothing" ++ [10] ++ bs "<c@new> Carl <c@old> " ++ [13; 10] ++ bs "Ann C<a@new><ann@old>".
Definition says1 : list (option madd) :=
  [None; Some (mkadd (Some (bs "Ann B")) (Some []) (Some []) (bs "ann@old")); None;
   Some (mkadd (Some []) (Some (bs "c@new")) (Some (bs "Carl")) (bs "c@old")); Some (mkadd (Some (bs "Ann C")) (Some (bs "a@new")) (Some []) (bs "ann@old"))].
Example file1_says : Forall2 says_maybe (split 10 file1) says1.
Proof. replace says1 with (map line_of (split 10 file1)) by (vm_compute; reflexivity). apply lines_say. Qed.
Example file1_nonul : ~ In 0 file1.
Proof. vm_compute. intuition discriminate. Qed.
Example file1_emails : Forall (fun a => a_email a <> []) (somes says1).
Proof. repeat constructor; discriminate. Qed.
Example file1_runs : exists l, mm_from_buffer file1 = Ok l /\ mm_resolve l (bs "Carl") (bs "c@old") = Ok (bs "Carl", bs "c@new") /\ mm_resolve l (bs "X") (bs "ann@old") = Ok (bs "Ann C", bs "a@new").
Proof. eexists. split; [vm_compute; reflexivity|split; vm_compute; reflexivity]. Qed.

Print Assumptions C76_file.
Print Assumptions C76_line_unique.
Print Assumptions C76_file_resolve.
Print Assumptions C76_nul.
Print Assumptions C76_safe.
Print Assumptions C76_empty_email_refuted.
