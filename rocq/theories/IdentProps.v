(** The ident filter: the theorems. *)
From Verif Require Import Base Str OidSpec FheadProofs IdentModel IdentSpec IdentProofs.

(** When contents are binary. *)
Theorem C77_binary s : bytes s -> is_binary s = true <-> binary s.
Proof. apply binary_iff. Qed.
(** A text with the keyword gets the id put in, and taken out again, at the first $Id; everything else
    stays. *)
Theorem C77_smudge id s a m b : is_binary s = false -> keyword s a m b ->
  ident_apply true (hex_text id) s = a ++ bs "$Id: " ++ hex_text id ++ bs " $" ++ b.
Proof. intros B K. exact (apply_found true _ s a b B (find_keyword _ _ _ _ K)). Qed.
Theorem C77_clean o s a m b : is_binary s = false -> keyword s a m b -> ident_apply false o s = a ++ bs "$Id$" ++ b.
Proof. intros B K. exact (apply_found false _ s a b B (find_keyword _ _ _ _ K)). Qed.
(** Binary contents, and texts without the keyword, stay as they are (unless they end in an odd way). *)
Theorem C77_unchanged smudge o s : is_binary s = true \/ ((forall a m b, ~ keyword s a m b) /\ forall a, ~ odd_end s a) -> ident_apply smudge o s = s.
Proof.
  intros [B|[N1 N2]]; apply apply_same; [auto|]. right. destruct (find_id s) as [[a b]|] eqn:F; [|reflexivity]. destruct (find_cases s a b F) as [[m K]|[K _]]; [destruct (N1 _ _ _ K)|destruct (N2 _ K)].
Qed.
(** What was stored with a clean keyword is stored the same again after it was checked out. *)
Theorem C77_stored_again id o s a b : bytes id -> is_binary s = false -> keyword s a [] b ->
  ident_apply false o (ident_apply true (hex_text id) s) = s.
Proof.
  intros Hi B K. assert (H : forall c, In c (hex_text id) -> 48 <= c <= 102) by (intros c; apply hex_clean; split; [reflexivity|exact Hi]).
  rewrite smudge_clean.
  - rewrite (C77_clean o s a [] b B K). destruct K as [[E _] _]. symmetry. exact E.
  - intros I. specialize (H 36 I). lia.
  - apply (smudge_not_binary _ s a b); [|exact B|exact K]. apply Forall_forall. intros c Hc. specialize (H c Hc). unfold plain. lia.
Qed.
(** For any contents: checking out does not change what is stored, unless it makes them binary. *)
Theorem C77_round_trip id o s : bytes id -> is_binary (ident_apply true (hex_text id) s) = false ->
  ident_apply false o (ident_apply true (hex_text id) s) = ident_apply false o s.
Proof.
  intros Hi B. apply smudge_clean; [|exact B]. intros I. pose proof (hex_clean id 36 (conj eq_refl Hi) I). lia.
Qed.
(** Storing is idempotent. *)
Theorem C77_clean_twice o1 o2 s : ident_apply false o2 (ident_apply false o1 s) = ident_apply false o1 s.
Proof. apply clean_twice. Qed.

(** *** Refuted *)
(** A text without any $Id that ends in a dollar, two bytes and a dollar loses the two bytes. *)
Theorem C77_odd_end_refuted s a o : odd_end s a -> is_binary s = false -> ident_apply false o s = a ++ bs "$Id$" /\ ident_apply false o s <> s.
Proof.
  intros K B. pose proof (apply_found false o s a [] B (find_odd _ _ K)) as E. split; [exact E|]. intros E2. destruct K as [N _]. apply (N a [36]). rewrite <- E2. exact E.
Qed.
Example odd_text : odd_end (bs "price in $US$") (bs "price in ").
Proof.
  split; [|exists (ch "U"), (ch "S"); reflexivity]. intros a r E. assert (H : find_id (bs "price in $US$") = Some (bs "price in ", [])) by (vm_compute; reflexivity).
  assert (P : forall n, (n <= 13)%nat -> prefixb (bs "$Id") (skipn n (bs "price in $US$")) = false).
  { intros n Hn. do 14 (destruct n as [|n]; [vm_compute; reflexivity|]). lia. }
  specialize (P (length a)). rewrite E in P. rewrite skipn_app, skipn_all, Nat.sub_diag in P. cbn [skipn] in P. change ([] ++ bs "$Id" ++ r) with (bs "$Id" ++ r) in P. rewrite prefixb_app in P.
  assert (L : (length a <= 13)%nat) by (apply (f_equal (@length Z)) in E; rewrite app_length in E; change (length (bs "price in $US$")) with 13%nat in E; lia). specialize (P L). discriminate.
Qed.
Example odd_text_stored o : ident_apply false o (bs "price in $US$") = bs "price in $Id$".
Proof. vm_compute. reflexivity. Qed.
(** A longer word, over several lines, counts as the keyword. *)
Theorem C77_longer_word_refuted o : ident_apply false o (bs "$Idle cash" ++ [10] ++ bs "5$") = bs "$Id$".
Proof. vm_compute. reflexivity. Qed.
(** Checking out can make contents binary, and then storing them gives other contents. *)
Definition grown : list Z := bs "$Id" ++ repeat (ch " ") 128 ++ bs "$" ++ [1].
Theorem C77_made_binary_refuted : exists id o, oid_ok 20 id /\ ident_apply false o (ident_apply true (hex_text id) grown) <> ident_apply false o grown.
Proof. exists (repeat 17 20), []. split; [split; [reflexivity|repeat constructor; easy]|]. vm_compute. discriminate. Qed.

(** *** The hypotheses are met *)
Example key_text : keyword (bs "a $ b $Id$ c") (bs "a $ b ") [] (bs " c").
Proof.
  apply (keyword_at (bs "a $ b ") [] (bs " c")); [|intros []]. intros a r E. apply (f_equal (@length Z)) in E as L. rewrite !app_length in L. change (length (bs "a $ b ")) with 6%nat in L. change (length (bs "$Id")) with 3%nat in L.
  destruct a as [|? [|? [|? [|? ?]]]]; vm_compute in E; try discriminate E. cbn [length] in L. lia.
Qed.
Example key_stored : is_binary (bs "a $ b $Id$ c") = false /\ ident_apply true (hex_text (repeat 17 20)) (bs "a $ b $Id$ c") = bs "a $ b $Id: 1111111111111111111111111111111111111111 $ c".
Proof. split; vm_compute; reflexivity. Qed.
Example bytes17 : bytes (repeat 17 20).
Proof. repeat constructor; easy. Qed.

Print Assumptions C77_binary.
Print Assumptions C77_smudge.
Print Assumptions C77_clean.
Print Assumptions C77_unchanged.
Print Assumptions C77_stored_again.
Print Assumptions C77_round_trip.
Print Assumptions C77_clean_twice.
Print Assumptions C77_odd_end_refuted.
Print Assumptions C77_longer_word_refuted.
Print Assumptions C77_made_binary_refuted.
