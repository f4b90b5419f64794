(** FETCH_HEAD: the theorems. *)
From Verif Require Import Base CStr Str SigModel OidModel OidSpec OidProps RefnameModel FheadModel FheadSpec FheadProofs.
From Coq Require Import Permutation.

(** Writing refs behind what FETCH_HEAD holds: reading it then reports what it reported before, then
    every ref written, the ones to be merged first and then by name, with its id, url, name and flag
    (HEAD without a name and to be merged). *)
Theorem C74_fetch_head_round_trip size old refs evs : (0 < size)%nat -> bytes old -> ~ In 0 old ->
  fh_foreach size (fun _ => 0) old = Ok (evs, 0) ->
  Forall (fh_good size) refs -> Z.of_nat (length refs) < 8589934592 ->
  exists l content, fh_write size old refs = Ok content /\ fh_ordered l /\ Permutation refs l /\
    fh_foreach size (fun _ => 0) content = Ok (evs ++ map told l, 0).
Proof. intros Hs. apply write_read; [exact Hs|]. intros e. reflexivity. Qed.

(** Whatever bytes FETCH_HEAD holds, it is read without leaving its text. *)
Theorem C74_fetch_head_safe size cb file : bytes file -> exists evs c, fh_foreach size cb file = Ok (evs, c).
Proof. apply foreach_safe. Qed.

(** The callback gets the refs in order, up to the first for which it does not answer 0; that answer is
    the result. *)
Theorem C74_callback_stops size cb file all c0 evs c :
  fh_foreach size (fun _ => 0) file = Ok (all, c0) -> fh_foreach size cb file = Ok (evs, c) ->
  (Forall (fun e => cb e = 0) all /\ evs = all /\ c = c0) \/
  (exists a e b, all = a ++ e :: b /\ Forall (fun e => cb e = 0) a /\ cb e <> 0 /\ evs = a ++ [e] /\ c = cb e).
Proof.
  unfold fh_foreach. generalize (split 10 (cut0 file)). intros ps. generalize false. intros prev. revert prev all evs.
  induction ps as [|p ps IH]; intros prev all evs H1 H2; [discriminate|]. destruct ps as [|q qs].
  - cbn [fh_loop] in *. left. injection H1 as <- <-. injection H2 as <- <-. repeat split. constructor.
  - rewrite loop_cons in H1, H2 by discriminate. unfold fh_round in *. destruct (fh_parse size prev p) as [ev|e| |] eqn:EP; try discriminate.
    + cbn [Z.eqb] in H1. destruct (fh_loop size (fun _ => 0) (ev_merge ev) (q :: qs)) as [[a1 k1]| | |] eqn:L1; try discriminate. cbn [bindr fst snd] in H1. injection H1 as <- <-.
      destruct (Z.eqb_spec (cb ev) 0) as [E0|E0].
      * destruct (fh_loop size cb (ev_merge ev) (q :: qs)) as [[a2 k2]| | |] eqn:L2; try discriminate. cbn [bindr fst snd] in H2. injection H2 as <- <-.
        destruct (IH _ _ _ L1 L2) as [(F & -> & ->)|(a & e & b & -> & F & N & -> & ->)]; [left; auto|]. right. exists (ev :: a), e, b. auto.
      * right. injection H2 as <- <-. exists [], ev, a1. auto.
    + left. injection H1 as <- <-. injection H2 as <- <-. auto.
Qed.

(** *** Refuted outside *)
Definition oid1 : list Z := repeat 17 20.
(** HEAD that is not to be merged is reported as to be merged. *)
Theorem C74_head_not_for_merge_refuted : exists r content, oid_ok 20 (fh_oid r) /\ fh_merge r = false /\
  fh_write 20 [] [r] = Ok content /\ fh_foreach 20 (fun _ => 0) content = Ok ([mkev None (Some (fh_url r)) (fh_oid r) true], 0).
Proof.
  exists (mkfh oid1 false (bs "HEAD") (bs "/srv/repo")). eexists. split; [split; [reflexivity|repeat constructor; easy]|]. split; [reflexivity|]. split; vm_compute; reflexivity.
Qed.
(** HEAD fetched from a path that begins with a quote: the file that is written is refused. *)
Theorem C74_quoted_url_refuted : exists r content, fh_name r = bs "HEAD" /\ oid_ok 20 (fh_oid r) /\
  fh_write 20 [] [r] = Ok content /\ fh_foreach 20 (fun _ => 0) content = Ok ([], -1).
Proof.
  exists (mkfh oid1 true (bs "HEAD") (bs "'srv/repo")). eexists. split; [reflexivity|]. split; [split; [reflexivity|repeat constructor; easy]|]. split; vm_compute; reflexivity.
Qed.
(** A name with two slashes behind refs/heads/ is reported with one. *)
Theorem C74_slashes_refuted : exists r content, oid_ok 20 (fh_oid r) /\ fh_name r = bs "refs/heads//x" /\
  fh_write 20 [] [r] = Ok content /\ fh_foreach 20 (fun _ => 0) content = Ok ([mkev (Some (bs "refs/heads/x")) (Some (fh_url r)) (fh_oid r) true], 0).
Proof.
  exists (mkfh oid1 true (bs "refs/heads//x") (bs "u")). eexists. split; [split; [reflexivity|repeat constructor; easy]|]. split; [reflexivity|]. split; vm_compute; reflexivity.
Qed.
(** A line with an id and a tab only is reported with the flag of the line before it. *)
Theorem C74_stale_flag_refuted : exists line a b, 
  fh_foreach 20 (fun _ => 0) (a ++ line) = Ok ([mkev None (Some (bs "u")) oid1 true; mkev None None oid1 true], 0) /\
  fh_foreach 20 (fun _ => 0) (b ++ line) = Ok ([mkev None (Some (bs "u")) oid1 false; mkev None None oid1 false], 0).
Proof.
  exists (repeat 49 40 ++ [9; 10]), (repeat 49 40 ++ [9; 9] ++ bs "u" ++ [10]), (repeat 49 40 ++ [9] ++ bs "not-for-merge" ++ [9] ++ bs "u" ++ [10]). split; vm_compute; reflexivity.
Qed.

(** *** The hypotheses are met *)
Definition ref1 : fhref := mkfh oid1 false (bs "refs/heads/main") (bs "https://example.org/r.git").
Definition ref2 : fhref := mkfh oid1 true (bs "refs/tags/v1") (bs "https://example.org/r.git").
Definition ref3 : fhref := mkfh oid1 true (bs "HEAD") (bs "/srv/r").
Ltac nostart := let v := fresh in let H := fresh in intros [v H]; vm_compute in H; discriminate H.
Example ref1_good : fh_good 20 ref1.
Proof.
  repeat split; try discriminate; try (repeat constructor; easy); try nostart.
Qed.
Example ref2_good : fh_good 20 ref2.
Proof.
  repeat split; try discriminate; try (repeat constructor; easy); try nostart.
Qed.
Example ref3_good : fh_good 20 ref3.
Proof.
  repeat split; try discriminate; try (repeat constructor; easy); try nostart. intros _ p [<-|[<-|[<-|[]]]]; nostart.
Qed.
Example three_written : exists content, fh_write 20 [] [ref1; ref2; ref3] = Ok content /\
  fh_foreach 20 (fun _ => 0) content = Ok (map told [ref3; ref2; ref1], 0).
Proof. eexists. split; vm_compute; reflexivity. Qed.

Print Assumptions C74_fetch_head_round_trip.
Print Assumptions C74_fetch_head_safe.
Print Assumptions C74_callback_stops.
Print Assumptions C74_head_not_for_merge_refuted.
Print Assumptions C74_quoted_url_refuted.
Print Assumptions C74_slashes_refuted.
Print Assumptions C74_stale_flag_refuted.
