(** C50 commit creation, C52 tags, C53 summary and body, and the cases where C49 and C51 fail. *)
From Verif Require Import Base Str OidModel OidSpec OidProofs OidProps SigModel SigSpec SigProofs SigProps ReflogProofs CommitModel CommitSpec CommitProofs CommitProps CommitSign.
Local Open Scope Z_scope.

(** * Tags *)
Theorem C52_tag_roundtrip_partial size name target type tagger message :
  (1 <= size)%nat -> oid_ok size target -> In type [1; 2; 3; 4] -> cstring name -> one_line name -> storable tagger -> cstring message ->
  exists buf, tag_buffer size name target type tagger message = Ok buf /\
    tag_parse size buf = Ok (mktag target type name (Some tagger) (Some message)).
Proof.
  intros Hs Ho Ht Cn On W Cm.
  assert (L1 : ~ In 10 (bs "tagger ")) by (intros H; vm_compute in H; repeat destruct H as [H|H]; discriminate || contradiction).
  destruct (sig_written tagger (bs "tagger ") W L1) as (t & Et). destruct (sig_cstr tagger (bs "tagger ") t W) as [Bt (rt & Rt)]; [cstr_tac|exact Et|].
  eexists. split. { unfold tag_buffer. rewrite (write_hdr _ _ _ Ho). cbn [bindr]. rewrite Et. cbn [bindr]. reflexivity. }
  set (b2 := bs "tag " ++ name ++ [10] ++ t ++ [10] ++ message). set (b1 := bs "type " ++ type_name type ++ [10] ++ b2).
  assert (Bb : bytes b1).
  { apply cstr_bytes. unfold b1, b2. apply Forall_app; split; [cstr_tac|]. apply Forall_app; split; [destruct Ht as [<-|[<-|[<-|[<-|[]]]]]; cstr_tac|]. apply Forall_app; split; [cstr_tac|].
    apply Forall_app; split; [cstr_tac|]. apply Forall_app; split; [exact Cn|]. apply Forall_app; split; [cstr_tac|]. apply Forall_app; split; [exact Bt|]. apply Forall_app; split; [cstr_tac|exact Cm]. }
  unfold tag_parse. rewrite <- !app_assoc. fold b2. fold b1. rewrite (parse_hdr size (bs "object ") target b1 Hs Ho Bb). cbn [bindr].
  assert (Lt : (7 <= length t)%nat) by (rewrite Rt, app_length; cbn; lia).
  assert (Lb2 : (13 <= length b2)%nat) by (unfold b2; rewrite !app_length; cbn [length bs map String.list_ascii_of_string]; lia).
  assert (Lb1 : (5 < length b1)%nat) by (unfold b1; rewrite !app_length; lia).
  destruct (Nat.leb_spec (length b1) 5); [lia|]. unfold b1 at 1. rewrite pfx. cbn [negb].
  assert (Sk : skipn 5 b1 = (type_name type ++ [10]) ++ b2) by (unfold b1; rewrite <- app_assoc; reflexivity). rewrite Sk.
  assert (Pt : parse_type [1; 2; 3; 4] ((type_name type ++ [10]) ++ b2) = Some (type, b2)).
  { assert (Len : forall n, (n <= 7)%nat -> ((length ((type_name type ++ [10%Z]) ++ b2) <=? n)%nat = false)) by (intros n Hn; apply Nat.leb_gt; rewrite app_length; lia).
    destruct Ht as [<-|[<-|[<-|[<-|[]]]]]; cbn [parse_type]; repeat (rewrite Len by (vm_compute; lia)); reflexivity. }
  rewrite Pt. destruct (Z.eqb_spec type 0) as [E|_]; [subst type; destruct Ht as [E|[E|[E|[E|[]]]]]; discriminate|].
  destruct (Nat.leb_spec (length b2) 4); [lia|]. unfold b2 at 1. rewrite pfx. cbn [negb].
  assert (Sk2 : skipn 4 b2 = name ++ 10 :: (t ++ [10] ++ message)) by reflexivity. rewrite Sk2. rewrite (memchr_app name 10 _ On), fsl, skip_line.
  assert (E4 : match t ++ [10] ++ message with [] => false | c :: _ => negb (c =? 10) end = true) by (rewrite Rt; reflexivity). rewrite E4.
  destruct (C32_roundtrip_partial tagger (bs "tagger ") ([10] ++ message) W L1) as (t' & Et' & Pp). assert (t' = t) by congruence. subst t'. rewrite Pp. cbn [bindr app].
  change (10 =? 10) with true. cbn match. rewrite !cut0_cstr by assumption. reflexivity.
Qed.
Print Assumptions C52_tag_roundtrip_partial.

(** Any bytes give a tag or an error. *)
Theorem C52_parse_total size data : bytes data -> (exists t, tag_parse size data = Ok t) \/ tag_parse size data = Err EINVALID.
Proof.
  intros B. unfold tag_parse. destruct (parse_hdr_total size data (bs "object ") B) as [->|(t & b1 & -> & L1 & B1)]; cbn [bindr]; [auto|].
  destruct (_ <=? _)%nat; [auto|]. destruct (prefixb _ b1); [|auto]. cbn [negb]. destruct (parse_type _ _) as [[ty b2]|]; [|auto]. destruct (ty =? 0); [auto|].
  destruct (_ <=? _)%nat; [auto|]. destruct (prefixb _ b2); [|auto]. cbn [negb]. destruct (memchr _ 10); [|auto].
  set (b4 := skipn _ (skipn 4 b2)).
  assert (F : forall (tg : option sig) b5, (exists x, match b5 with [] => Ok (mktag t ty (cut0 (firstn n (skipn 4 b2))) tg None)
     | c :: r => if c =? 10 then Ok (mktag t ty (cut0 (firstn n (skipn 4 b2))) tg (Some (cut0 r))) else
         match strstr_nn b5 with None => Err EINVALID | Some j => Ok (mktag t ty (cut0 (firstn n (skipn 4 b2))) tg (Some (cut0 (skipn (j + 2) b5)))) end end = Ok x) \/
     match b5 with [] => Ok (mktag t ty (cut0 (firstn n (skipn 4 b2))) tg None)
     | c :: r => if c =? 10 then Ok (mktag t ty (cut0 (firstn n (skipn 4 b2))) tg (Some (cut0 r))) else
         match strstr_nn b5 with None => Err EINVALID | Some j => Ok (mktag t ty (cut0 (firstn n (skipn 4 b2))) tg (Some (cut0 (skipn (j + 2) b5)))) end end = Err EINVALID).
  { intros tg b5. destruct b5 as [|x r]; [eauto|]. destruct (x =? 10); [eauto|]. destruct (strstr_nn (x :: r)); eauto. }
  destruct (match b4 with [] => false | c :: _ => negb (c =? 10) end).
  - destruct (C32_parse_total b4 (Some (bs "tagger ")) 10) as [(s & r & ->)| ->]; cbn [bindr]; [|auto]. apply F.
  - cbn [bindr]. apply F.
Qed.
Print Assumptions C52_parse_total.

Definition id0 := repeat 17 20.
Definition who := mksig ada ada_mail 1700000000 0 43.
(** A tag name with a newline (git_tag_annotation_create does not check it) comes back as another
    name. *)
Theorem C52_newline_name_refuted : exists buf t, tag_buffer 20 (bs "v1" ++ [10; 10] ++ bs "x") id0 1 who (bs "m") = Ok buf /\
  tag_parse 20 buf = Ok t /\ t_name t = bs "v1" /\ t_tagger t = None.
Proof. do 2 eexists. split; [vm_compute; reflexivity|]. split; [vm_compute; reflexivity|]. split; reflexivity. Qed.
Lemma who_ok : storable who.
Proof.
  unfold who. eapply (proj2 (proj2 (proj2 (proj2 (proj2 (proj2 (C32_new_storable ada ada_mail 1700000000 0 _ eq_refl)))))));
    try (repeat constructor; fail); try (intros H; vm_compute in H; repeat destruct H as [H|H]; discriminate || contradiction).
  - split; [discriminate|reflexivity].
  - split; discriminate.
Qed.
Lemma id0_ok : oid_ok 20 id0. Proof. split; [reflexivity|]. repeat constructor; unfold is_byte; discriminate. Qed.
Example C52_case : exists buf, tag_buffer 20 (bs "v1") id0 1 who (bs "First") = Ok buf /\ tag_parse 20 buf = Ok (mktag id0 1 (bs "v1") (Some who) (Some (bs "First"))).
Proof.
  apply C52_tag_roundtrip_partial; [lia|apply id0_ok|left; reflexivity|cstr_tac|intros H; vm_compute in H; repeat destruct H as [H|H]; discriminate || contradiction|apply who_ok|cstr_tac].
Qed.

(** * Commits *)
Example C49_case : exists buf header,
  create_buffer 20 who who (Some (bs "ISO-8859-1")) (bs "Fix it") id0 [id0; id0] = Ok buf /\
  buf = header ++ 10 :: bs "Fix it" /\
  commit_parse 20 buf = Ok (mkcommit id0 [id0; id0] who who (Some (bs "ISO-8859-1")) header (bs "Fix it")).
Proof.
  apply C49_commit_roundtrip_partial; [lia|apply id0_ok|repeat constructor; unfold is_byte; discriminate|apply who_ok|apply who_ok| |cstr_tac].
  split; [cstr_tac|intros H; vm_compute in H; repeat destruct H as [H|H]; discriminate || contradiction].
Qed.
(** The encoding is not checked: with a newline in it the commit gets another message. *)
Theorem C49_encoding_refuted : exists buf c, create_buffer 20 who who (Some (bs "UTF-8" ++ [10; 10] ++ bs "other")) (bs "Fix it") id0 [] = Ok buf /\
  commit_parse 20 buf = Ok c /\ c_encoding c = Some (bs "UTF-8") /\ c_message c <> bs "Fix it".
Proof. do 2 eexists. split; [vm_compute; reflexivity|]. split; [vm_compute; reflexivity|]. split; [reflexivity|discriminate]. Qed.

Definition sigtext := bs "-----BEGIN" ++ [10; 10] ++ bs "abc" ++ [10].
Example C51_case : exists buf out, create_buffer 20 who who None (bs "Fix it") id0 [id0] = Ok buf /\
  create_with_signature 20 (fun _ => true) buf (Some sigtext) None = Ok out /\ extract None out = Ok (sigtext, buf).
Proof. do 2 eexists. split; [vm_compute; reflexivity|]. split; vm_compute; reflexivity. Qed.
Example C51_case_meets : field_ok (bs "gpgsig") /\ cstring sigtext.
Proof.
  split; [|cstr_tac]. split; [cstr_tac|]. split; [|split; [|split; [discriminate|]]]; intros H; vm_compute in H; repeat destruct H as [H|H]; discriminate || contradiction.
Qed.
(** The search for the signature runs on into the message: a commit that was never signed counts as
    signed when a line of its message looks like the header. *)
Theorem C51_message_refuted : exists buf d,
  create_buffer 20 who who None (bs "Fix it" ++ [10] ++ bs "gpgsig forged" ++ [10] ++ bs "end") id0 [] = Ok buf /\
  extract None buf = Ok (bs "forged", d) /\ d <> buf.
Proof. do 2 eexists. split; [vm_compute; reflexivity|]. split; [vm_compute; reflexivity|]. discriminate. Qed.
(** A header whose name only begins with the field's name loses these bytes in the signed data. *)
Theorem C51_prefix_refuted : exists buf out d,
  create_buffer 20 who who None (bs "Fix it") id0 [] = Ok buf /\
  (do b <- create_with_signature 20 (fun _ => true) buf (Some (bs "s256")) (Some (bs "gpgsig-sha256")) ;;
   create_with_signature 20 (fun _ => true) b (Some (bs "s1")) None) = Ok out /\
  create_with_signature 20 (fun _ => true) buf (Some (bs "s256")) (Some (bs "gpgsig-sha256")) <> Ok d /\
  extract None out = Ok (bs "s1", d).
Proof. do 3 eexists. split; [vm_compute; reflexivity|]. split; [vm_compute; reflexivity|]. split; [|vm_compute; reflexivity]. vm_compute. discriminate. Qed.
(** An empty field name makes the search loop for ever. *)
Theorem C51_empty_field_refuted : forall fuel buf sd, (exists c d r, buf = c :: d :: 10 :: r /\ r <> [] /\ c <> 32 /\ c <> 10 /\ d <> 10) ->
  extract_signature fuel [] buf sd = NoFuel.
Proof.
  intros fuel buf sd (c & d & r & -> & Nr & Nc & N1 & N2). induction fuel as [|f IH]; [reflexivity|]. cbn [extract_signature memchr].
  destruct (Z.eqb_spec c 10); [contradiction|]. destruct (Z.eqb_spec d 10); [contradiction|]. change (10 =? 10) with true. cbn [option_map length Nat.add].
  destruct r as [|x r]; [contradiction|]. cbn [length Nat.eqb prefixb negb skipn]. destruct (Z.eqb_spec c 32); [contradiction|]. cbn [negb]. exact IH.
Qed.

(** * Creation *)
(** When the object store works: success means that the commit is stored, its parent is the old tip of
    the branch, and the branch is at the commit; failure leaves everything as it was. *)
Theorem C50_create_partial hash buffer parents ok update r code r' :
  create_internal hash buffer parents ok true true true update r = (code, r') ->
  (code = 0 -> In (hash buffer) (r_objects r') /\
     (update = true -> r_ref r' = Some (hash buffer) /\ forall tip, r_ref r = Some tip -> exists more, parents = tip :: more) /\
     (update = false -> r_ref r' = r_ref r)) /\
  (code <> 0 -> r' = r) /\ (forall o, In o (r_objects r) -> In o (r_objects r')).
Proof.
  unfold create_internal. destruct ok; cbn [negb]; [|intros E; injection E as <- <-; split; [discriminate|]; auto].
  destruct (match (if update then r_ref r else None) with Some id => _ | None => false end) eqn:M; [intros E; injection E as <- <-; split; [discriminate|]; auto|].
  destruct update; intros E; injection E as <- <-; cbn [r_objects r_ref].
  - split; [|split; [congruence|intros; right; assumption]]. intros _. split; [left; reflexivity|]. split; [|discriminate]. intros _. split; [reflexivity|].
    intros tip T. rewrite T in M. destruct parents as [|p ps]; [discriminate|]. apply negb_false_iff, leqb_spec in M. subst. eauto.
  - split; [|split; [congruence|intros; right; assumption]]. intros _. split; [left; reflexivity|]. split; [discriminate|reflexivity].
Qed.
Example C50_case : create_internal (fun b => b) [7] [[1]] true true true true true (mkrepo [[1]] (Some [1])) = (0, mkrepo [[7]; [1]] (Some [7])) /\
  fst (create_internal (fun b => b) [7] [[2]] true true true true true (mkrepo [[1]] (Some [1]))) = EMODIFIED.
Proof. split; reflexivity. Qed.
(** When the object cannot be written (or the store not opened, or the tree not refreshed), the
    creation still reports success although nothing was stored and the branch did not move. *)
Theorem C50_failed_write_refuted : forall odb fresh writes, odb && fresh && writes = false ->
  create_internal (fun b => b) [7] [[1]] true odb fresh writes true (mkrepo [[1]] (Some [1])) = (0, mkrepo [[1]] (Some [1])).
Proof. intros [] [] [] H; try discriminate H; reflexivity. Qed.
Print Assumptions C50_create_partial.
Print Assumptions C50_failed_write_refuted.
