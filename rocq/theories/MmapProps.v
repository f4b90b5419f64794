(** Mailmaps: the theorems. *)
From Verif Require Import Base Str MmapModel MmapSpec MmapProofs.

(** Whatever was added to a mailmap, in whatever order, resolving a name and an email gives the real
    ones of the last addition for exactly this name and email; if there is none, those of the last
    addition for any name with this email; if there is none, the name and email themselves. *)
Theorem C75_resolve h : Forall (fun a => a_email a <> []) h ->
  exists l, mm_adds [] h = Ok l /\ forall name email, mm_resolve l name email = Ok (resolved h name email).
Proof.
  intros H. destruct (mm_adds_ok h H [] [] means_nil) as (l & E & M). exists l. split; [exact E|]. intros name email. apply mm_resolve_ok. exact M.
Qed.
(** An addition without an email to replace is refused. *)
Theorem C75_no_email l rname remail name : mm_add l rname remail name [] = Err (-1).
Proof. reflexivity. Qed.

Definition adds1 : list madd :=
  [mkadd (Some (bs "Ann B")) None None (bs "ann@old"); mkadd None (Some (bs "c@new")) (Some (bs "Carl")) (bs "ann@old");
   mkadd (Some (bs "Ann C")) (Some []) (Some []) (bs "ann@old"); mkadd (Some (bs "Z")) None None (bs "z@z")].
Example adds1_ok : Forall (fun a => a_email a <> []) adds1.
Proof. repeat constructor; discriminate. Qed.
Example adds1_means : resolved adds1 (bs "Carl") (bs "ann@old") = (bs "Carl", bs "c@new") /\
  resolved adds1 (bs "Dora") (bs "ann@old") = (bs "Ann C", bs "ann@old") /\ resolved adds1 (bs "Dora") (bs "d@d") = (bs "Dora", bs "d@d").
Proof. repeat split. Qed.
Example adds1_runs : exists l, mm_adds [] adds1 = Ok l /\ mm_resolve l (bs "Carl") (bs "ann@old") = Ok (bs "Carl", bs "c@new").
Proof. eexists. split; vm_compute; reflexivity. Qed.

Print Assumptions C75_resolve.
Print Assumptions C75_no_email.
