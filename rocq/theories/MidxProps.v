(** Multi-pack-index files: the theorems. *)
From Verif Require Import Base Arr CStr Str OidModel OidSpec OidProofs IdxFileModel PackIdxModel PackIdxSpec PackIdxProofs PackIdxMain CgModel CgSpec CgWrite MidxModel MidxSpec MidxSafe MidxLay MidxSort MidxTab MidxMain MidxRound MidxBig.

(** C70: for packs with distinct names pack-....pack, with at least one and at most 2^28 objects and
    less than 4 GB of names, and any hash: the file written ends with the hash of the rest, the reader
    accepts it, every object is found by its id in a pack that has it, at the offset it has there;
    an abbreviation finds the one object it abbreviates, or nothing, or is ambiguous; and the file
    enumerates exactly the ids of the objects, in increasing order. *)
Theorem C70_midx_round_trip : forall H packs, (forall b, length (H b) = 20%nat /\ bytes (H b)) -> packs_ok packs ->
  objects packs <= 268435456 -> name_bytes packs < 4294967290 ->
  exists body f, mx_write H packs = Ok (body ++ H body) /\ mx_parse 20 (body ++ H body) = Ok f /\ m_sum f = H body /\ mx_answers f packs.
Proof. apply midx_round_trip. Qed.

(** C71: any file of less than 5 GiB either is rejected or can be enumerated and searched, with any
    id, full or abbreviated: nothing outside it is read and no arithmetic overflows; every entry found
    has an id that the file lists and a pack that it names. *)
Theorem C71_midx_reading_safe : forall data, bytes data -> Z.of_nat (length data) < 5368709120 ->
  match mx_parse 20 data with
  | Ok f => exists l, mx_foreach f = Ok l /\
      forall q len, oid_ok 20 q -> (len <= 40)%nat ->
        match mx_find f q len with
        | Ok e => 0 <= me_pack e < Z.of_nat (length (m_packs f)) /\ In (me_id e) l
        | Err e => e = -1 \/ e = -3 \/ e = -5
        | _ => False
        end
  | Err e => e = -1
  | _ => False
  end.
Proof. apply reading_safe. Qed.

(** *** Cases *)
Definition oid_of (x : Z) : list Z := x :: repeat 7 19.
Definition zero_hash (_ : list Z) : list Z := repeat 0 20.
Definition pack_b : mpack := mkmp (bs "pack-b.pack") [(oid_of 9, 12); (oid_of 5, 5000000000)].
Definition pack_a : mpack := mkmp (bs "pack-a.pack") [(oid_of 3, 40); (oid_of 9, 77)].
Lemma oid_of_ok x : 0 <= x < 256 -> oid_ok 20 (oid_of x).
Proof. intros H. split; [reflexivity|]. unfold oid_of. cbn [repeat]. repeat (constructor; [unfold is_byte; lia|]). constructor. Qed.
Lemma zero_hash_ok b : length (zero_hash b) = 20%nat /\ bytes (zero_hash b).
Proof. split; [reflexivity|]. unfold zero_hash. cbn [repeat]. repeat (constructor; [unfold is_byte; lia|]). constructor. Qed.
Lemma stem_b (s : list Z) : s <> [] -> forallb (fun c => (0 <? c) && (c <? 256) && negb (c =? 46) && negb (c =? 47) && negb (c =? 92)) s = true -> stem_ok s.
Proof.
  intros Hs Hf. assert (F : forall c, In c s -> 0 < c < 256 /\ c <> 46 /\ c <> 47 /\ c <> 92).
  { intros c Hc. rewrite forallb_forall in Hf. specialize (Hf c Hc). repeat (apply andb_true_iff in Hf as [Hf ?]). repeat match goal with X : negb _ = true |- _ => apply negb_true_iff, Z.eqb_neq in X end.
    apply Z.ltb_lt in Hf. match goal with X : (_ <? 256) = true |- _ => apply Z.ltb_lt in X end. auto. }
  split; [exact Hs|]. split; [|repeat split; intros Hc; destruct (F _ Hc) as (? & ? & ? & ?); lia].
  unfold bytes. rewrite Forall_forall. intros c Hc. destruct (F c Hc). unfold is_byte. lia.
Qed.
Lemma pack_a_ok : pack_ok pack_a.
Proof. split; [exists (bs "pack-a"); split; [apply stem_b; [discriminate|reflexivity]|reflexivity]|]. repeat (constructor; [split; [apply oid_of_ok; lia|cbn [snd]; lia]|]). constructor. Qed.
Lemma pack_b_ok : pack_ok pack_b.
Proof. split; [exists (bs "pack-b"); split; [apply stem_b; [discriminate|reflexivity]|reflexivity]|]. repeat (constructor; [split; [apply oid_of_ok; lia|cbn [snd]; lia]|]). constructor. Qed.
Example midx_case : packs_ok [pack_b; pack_a] /\ objects [pack_b; pack_a] <= 268435456 /\ name_bytes [pack_b; pack_a] < 4294967290 /\
  exists data f e1 e2, mx_write zero_hash [pack_b; pack_a] = Ok data /\ mx_parse 20 data = Ok f /\ m_packs f = [bs "pack-a.idx"; bs "pack-b.idx"] /\
    mx_find f (oid_of 5) 40 = Ok e1 /\ me_pack e1 = 1 /\ me_off e1 = 5000000000 /\ mx_find f (oid_of 3) 2 = Ok e2 /\ me_pack e2 = 0 /\ me_off e2 = 40 /\
    mx_find f (oid_of 4) 40 = Err (-3) /\ mx_find f (oid_of 3) 1 = Err (-5) /\ mx_foreach f = Ok [oid_of 3; oid_of 5; oid_of 9].
Proof.
  split; [split; [|split]|split; [|split]].
  - constructor; [exact pack_b_ok|]. constructor; [exact pack_a_ok|constructor].
  - cbn [map mp_name pack_a pack_b]. constructor; [intros [E|[]]; vm_compute in E; discriminate|]. constructor; [intros []|constructor].
  - exists pack_b. split; [left; reflexivity|discriminate].
  - vm_compute. discriminate.
  - vm_compute. reflexivity.
  - destruct (mx_write zero_hash [pack_b; pack_a]) as [data| | |] eqn:Ew; [|vm_compute in Ew; discriminate..]. exists data. destruct (mx_parse 20 data) as [f| | |] eqn:Ep;
      [|vm_compute in Ew; injection Ew as <-; vm_compute in Ep; discriminate..]. exists f. vm_compute in Ew. injection Ew as <-. vm_compute in Ep. injection Ep as <-.
    eexists. eexists. repeat (split; [vm_compute; reflexivity|]). vm_compute. reflexivity.
Qed.

(** *** What the writer accepts and the reader then refuses *)
(** The same pack added twice; nothing added; two names of which one is a prefix of the other up to a dot. *)
Definition rejected (packs : list mpack) : Prop := exists data, mx_write zero_hash packs = Ok data /\ mx_parse 20 data = Err (-1).
Lemma rejected_b packs : match mx_write zero_hash packs with Ok data => match mx_parse 20 data with Err (-1) => true | _ => false end | _ => false end = true -> rejected packs.
Proof.
  intros H. destruct (mx_write zero_hash packs) as [data| | |] eqn:E; try discriminate. exists data. split; [exact E|]. destruct (mx_parse 20 data) as [|e| |]; try discriminate.
  destruct e as [|[| |]|[| |]]; try discriminate. reflexivity.
Qed.
Theorem C70_duplicate_pack_refuted : Forall pack_ok [pack_a; pack_a] /\ rejected [pack_a; pack_a].
Proof.
  split; [|apply rejected_b; vm_compute; reflexivity].
  constructor; [exact pack_a_ok|]. constructor; [exact pack_a_ok|constructor].
Qed.
Theorem C70_empty_refuted : rejected [].
Proof. apply rejected_b. vm_compute. reflexivity. Qed.
Definition pack_dot (n : list Z) : mpack := mkmp n [(oid_of 1, 12)].
Theorem C70_dotted_name_refuted : NoDup (map mp_name [pack_dot (bs "a.pack"); pack_dot (bs "a.ix.pack")]) /\ rejected [pack_dot (bs "a.pack"); pack_dot (bs "a.ix.pack")].
Proof.
  split; [|apply rejected_b; vm_compute; reflexivity]. cbn [map mp_name pack_dot]. constructor; [intros [E|[]]; vm_compute in E; discriminate|]. constructor; [intros []|constructor].
Qed.
(** An entry's offset can be negative: the reader accepts a large offset of 64 ones. *)
Definition bad_offset : list Z :=
  mx_body 1 (bs "a.idx" ++ [0; 0; 0]) (fan_table [(oid_of 1, 0)]) (oid_of 1) (be 4 0 ++ be 4 TOPBIT) (repeat 255 8) ++ repeat 0 20.
Theorem C71_negative_offset : exists f e, mx_parse 20 bad_offset = Ok f /\ mx_find f (oid_of 1) 40 = Ok e /\ me_off e = -1.
Proof. destruct (mx_parse 20 bad_offset) as [f| | |] eqn:E; vm_compute in E; try discriminate. exists f. injection E as <-. eexists. split; [reflexivity|]. split; vm_compute; reflexivity. Qed.
(** Beyond the bound: a file of 2^29 + 2 objects whose lookup overflows an int (undefined behaviour). *)
Theorem C71_large_file_refuted : exists data f q, bytes data /\ mx_parse 20 data = Ok f /\ oid_ok 20 q /\ mx_find f q 40 = UB.
Proof. apply big_exists. Qed.
Print Assumptions C70_midx_round_trip. Print Assumptions C71_midx_reading_safe.
