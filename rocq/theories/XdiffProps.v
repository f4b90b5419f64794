(** C56, C57: a line diff tells the truth about the two texts and applies back. *)
From Verif Require Import Base CStr Str ApplyModel ApplySpec ApplyProofs ApplyProps XdiffModel XdiffSpec XdiffProofs XdiffMain XdiffUse XdiffMyers XdiffSplit.
Local Open Scope Z_scope.

(** Texts that fit in memory: git_xdiff takes only files below 1 GB (GIT_XDIFF_MAX_SIZE). *)
Definition fits (old new : list Z) : Prop := Z.of_nat (length old + length new) < 2 ^ 63 - 1.
Lemma fits_right old new : fits old new -> right_split split_of (length old + length new).
Proof. intros F ha1 ha2 mx L. apply split_of_right. unfold fits in F. change LINE_MAX with (2 ^ 63 - 1). lia. Qed.

(** ** C56 *)

(** The diff never fails (in particular: reads or writes nothing outside its arrays, and stops).  Its hunks cut the
    two texts into the same kept lines and changes: with the lines the hunks show as removed and the
    context, the kept lines are the old text; with the lines shown as added, the new one.  Each
    hunk's header counts its lines and says where it starts; each line has its number in each text. *)
Theorem C56_diff_is_right better op old new : fits old new -> exists hs cs tail, diff better op old new = Ok hs /\
  lines_of old (before cs tail) /\ lines_of new (after cs tail) /\ reports 0 0 hs cs /\ all_numbered 0 0 hs cs.
Proof.
  intros F. destruct (diff_with_spec split_of (heur_of better) op old new (fits_right _ _ F)) as (hs & cs & tail & E & L1 & L2 & R & _). exists hs, cs, tail. do 4 (split; auto).
  eapply numbered_reports; eauto; eapply lines_wl; eauto.
Qed.
(** Nothing is reported exactly if the texts are the same. *)
Theorem C56_empty_iff_same better op old new : fits old new -> (diff better op old new = Ok [] <-> old = new).
Proof. intros F. apply diff_with_empty. now apply fits_right. Qed.
(** A hunk starts and ends with the context asked for, fewer lines only where the text starts or ends,
    has a change right after and right before it, and more lines than the caller wants
    to join hunks over are left out between two hunks. *)
Theorem C56_context better op old new : fits old new -> exists hs cs tail, diff better op old new = Ok hs /\
  lines_of old (before cs tail) /\ lines_of new (after cs tail) /\ reports 0 0 hs cs /\ spaced (context_lines op) (interhunk_lines op) true hs cs tail.
Proof. intros F. exact (diff_with_spec split_of (heur_of better) op old new (fits_right _ _ F)). Qed.

(** ** C57 *)

(** Applying the hunks of a diff with context to the old text gives the new one. *)
Theorem C57_diff_applies_partial better op old new : fits old new -> (1 <= context_lines op)%nat ->
  exists hs, diff better op old new = Ok hs /\ apply_hunks (fun _ => 0) old (map to_apply hs) = Ok new.
Proof.
  intros F C. destruct (diff_with_spec split_of (heur_of better) op old new (fits_right _ _ F)) as (hs & _ & _ & E & _). exists hs. split; auto.
  apply (diff_with_applies split_of (heur_of better) op old new hs); auto; [now apply fits_right|]. unfold fits in F. change (2 ^ 64) with (2 * 2 ^ 63). lia.
Qed.
Definition nl (l : list Z) : list Z := l ++ [10].
Definition plain (_ : list (list Z)) (_ _ _ : nat) : bool := true.
(** Without context lines it need not: deleting the second of three lines cannot be applied. *)
Theorem C57_no_context_refuted : exists old new hs, fits old new /\ diff plain (mkopts 0 0 false true) old new = Ok hs /\ apply_hunks (fun _ => 0) old (map to_apply hs) <> Ok new.
Proof.
  exists (nl [97] ++ nl [98] ++ nl [99]), (nl [97] ++ nl [99]). eexists. split; [reflexivity|]. split; [vm_compute; reflexivity|]. vm_compute. discriminate.
Qed.

(** ** What the theorems say of an example *)
Definition old_ex : list Z := nl [97] ++ nl [98] ++ nl [99] ++ nl [100] ++ nl [101] ++ nl [102] ++ nl [103] ++ nl [104] ++ [120].
Definition new_ex : list Z := nl [97] ++ nl [66] ++ nl [99] ++ nl [100] ++ nl [101] ++ nl [102] ++ nl [103] ++ nl [104] ++ nl [120].
Example C56_example : fits old_ex new_ex /\ exists h1 h2, diff plain (mkopts 1 0 false true) old_ex new_ex = Ok [h1; h2] /\
  d_lines h1 = [mkline Context (nl [97]); mkline Deletion (nl [98]); mkline Addition (nl [66]); mkline Context (nl [99])] /\
  (old_start h1, old_lines h1, new_start h1, new_lines h1) = (1, 3, 1, 3) /\ line_numbers h1 = [(1, 1); (2, -1); (-1, 2); (3, 3)] /\
  d_lines h2 = [mkline Context (nl [104]); mkline Deletion [120]; mkline Eofnl no_newline; mkline Addition (nl [120])] /\
  (old_start h2, old_lines h2, new_start h2, new_lines h2) = (8, 2, 8, 2) /\ map (fun p => nth p (line_numbers h2) (0, 0)) [0; 1; 3]%nat = [(8, 8); (9, -1); (-1, 9)] /\
  apply_hunks (fun _ => 0) old_ex (map to_apply [h1; h2]) = Ok new_ex.
Proof. split; [reflexivity|]. do 2 eexists. split; [vm_compute; reflexivity|]. vm_compute. auto 10. Qed.
(** Hunks are joined over the lines between them. *)
Example C56_joined : exists h, diff plain (mkopts 3 0 false true) old_ex new_ex = Ok [h] /\ length (d_lines h) = 12%nat.
Proof. eexists. split; vm_compute; reflexivity. Qed.

Print Assumptions C56_diff_is_right.
Print Assumptions C56_empty_iff_same.
Print Assumptions C56_context.
Print Assumptions C57_diff_applies_partial.
Print Assumptions C57_no_context_refuted.
