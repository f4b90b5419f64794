(** C55: reading just the size and type of a packed object; and what goes wrong with
    damaged packs. *)
From Verif Require Import Base PackHdrSpec PackHdrModel PackHdrProps VarintSpec DeltaSpec DeltaModel DeltaApplyProofs PackReadModel PackReadSpec PackReadProofs PackReadMain PackReadProps.

Lemma resolve_type_mono p f : forall off ty, resolve_type p f off = Ok ty -> forall f', (f <= f')%nat -> resolve_type p f' off = Ok ty.
Proof.
  induction f as [|f IH]; intros off ty E f' L; [discriminate|]. destruct f' as [|f']; [lia|]. cbn [resolve_type] in *.
  destruct (unpack_header p off) as [[[s t] c]| | |]; cbn [bindr] in *; try discriminate. destruct (negb (is_delta t)); [exact E|].
  destruct (get_delta_base p c t off) as [[n b]| | |]; cbn [bindr] in *; try discriminate. apply IH; [exact E|lia].
Qed.
Lemma retry_none f : retry f = NoFuel.
Proof. induction f; [reflexivity|assumption]. Qed.
Lemma head_any p f f' pos : stream_head p f pos = stream_head p f' pos.
Proof. unfold stream_head. rewrite !retry_none. reflexivity. Qed.
Lemma resolve_mono p f off r : resolve_header p f off = Ok r -> forall f', (f <= f')%nat -> resolve_header p f' off = Ok r.
Proof.
  unfold resolve_header, read_header_fromstream. intros E f' L. destruct (unpack_header p off) as [[[s t] c]| | |]; cbn [bindr] in *; try discriminate. destruct (is_delta t); [|exact E].
  destruct (get_delta_base p c t off) as [[n b]| | |]; cbn [bindr] in *; try discriminate. rewrite (head_any p f' f).
  destruct (stream_head p f n) as [bf| | |]; cbn [bindr] in *; try discriminate. destruct (delta_read_header bf) as [[x y]| | |]; cbn [bindr] in *; try discriminate.
  destruct (resolve_type p f b) as [ty| | |] eqn:RT; cbn [bindr] in *; try discriminate. rewrite (resolve_type_mono _ _ _ _ RT f' L). exact E.
Qed.
Lemma head_of_delta h1 b h2 r body : size_code h1 b -> size_code h2 r -> (length h1 <= 5)%nat -> (length h2 <= 5)%nat ->
  delta_read_header (firstn 16 (h1 ++ h2 ++ body)) = Ok (b mod 2 ^ 32, r mod 2 ^ 32).
Proof.
  intros C1 C2 L1 L2. rewrite !firstn_app, (firstn_all2 h1), (firstn_all2 h2) by lia. unfold delta_read_header.
  rewrite (hdr_start h1 b _ C1 L1). cbn [bindr]. rewrite (hdr_start h2 r _ C2 L2). reflexivity.
Qed.
Lemma type_mden p off ty d : mden p off ty d -> exists f, resolve_type p f off = Ok ty.
Proof.
  induction 1 as [off e d C R U|off e b ty bd dl d C M (f & IH) U A]; unfold chain_elem in C.
  - exists 1%nat. cbn [resolve_type]. destruct (unpack_header p off) as [[[s t] c]| | |]; cbn [bindr] in *; try discriminate. destruct (is_delta t).
    { destruct (get_delta_base p c t off) as [[? ?]| | |]; discriminate. } injection C as <-. reflexivity.
  - exists (S f). cbn [resolve_type]. destruct (unpack_header p off) as [[[s t] c]| | |]; cbn [bindr] in *; try discriminate. destruct (is_delta t); [|discriminate].
    destruct (get_delta_base p c t off) as [[? ?]| | |]; cbn [bindr negb] in *; try discriminate. injection C as _ <-. exact IH.
Qed.

(** For every object in the pack, the size and type reported are those of the object
    reading it gives. *)
Theorem C55_header_agrees : forall p off ty d, pack_ok p -> inflates_bytes p -> 0 <= off -> denotes p off ty d ->
  exists n, forall fuel, (n <= fuel)%nat -> resolve_header p fuel off = Ok (Z.of_nat (length d), ty).
Proof.
  intros p off ty d P Z0 Ho D. pose proof D as D0. destruct D as [off ty d (Hl & h & size & rest & Er & L & Hc & R & S0)|off base dl ty b d DE D DM].
  - exists O. intros f _. unfold resolve_header. rewrite (header_find p off h rest ty size P Hl Er L Hc). cbn [bindr].
    assert (E : is_delta ty = false). { unfold is_delta, OFS_DELTA, REF_DELTA. destruct (Z.eqb_spec ty 6), (Z.eqb_spec ty 7); try lia; reflexivity. } rewrite E.
    destruct S0 as (_ & _ & ->). reflexivity.
  - pose proof DE as (Hl & h & t & size & nm & rest & Er & L & Hc & Bn & Hp & (SW & SI & SL)).
    assert (Hb : 0 <= base). { apply delta_iff in DE as (e & C & _); [|exact P|exact Ho]. apply (base_nonneg p off e base P Ho C). }
    apply mden_iff in D; try assumption. destruct (type_mden _ _ _ _ D) as [f RT]. exists f. intros f' Lf. unfold resolve_header.
    rewrite (header_find p off h (nm ++ rest) t size P Hl Er L Hc). cbn [bindr]. rewrite (base_type _ _ _ _ _ Bn). pose proof (po_size p P).
    rewrite (base_find p off (off + Z.of_nat (length h)) t nm rest base); try exact P; try lia; try exact Bn.
    2:{ rewrite rest_add, Er, skipn_app, skipn_all, Nat.sub_diag by exact Ho. reflexivity. }
    cbn [bindr]. unfold read_header_fromstream, stream_head. rewrite win_open, SI by exact SW. cbn [bindr].
    destruct DM as (h1 & b0 & h2 & r & body & -> & C1 & C2 & L1 & L2 & HB & HR & _). rewrite (head_of_delta h1 b0 h2 r body C1 C2 L1 L2). cbn [bindr].
    rewrite (resolve_type_mono _ _ _ _ RT f' Lf). cbn [bindr]. rewrite HR. reflexivity.
Qed.
Print Assumptions C55_header_agrees.
(** So an answer is never wrong about an object that can be read. *)
Theorem C55_header_never_wrong : forall p fuel off sz t ty d, pack_ok p -> inflates_bytes p -> 0 <= off ->
  resolve_header p fuel off = Ok (sz, t) -> denotes p off ty d -> sz = Z.of_nat (length d) /\ t = ty.
Proof.
  intros p f off sz t ty d P Z0 Ho E D. destruct (C55_header_agrees p off ty d P Z0 Ho D) as [n H]. specialize (H (Nat.max n f) ltac:(lia)).
  rewrite (resolve_mono _ _ _ _ E (Nat.max n f) ltac:(lia)) in H. injection H as -> ->. auto.
Qed.
Print Assumptions C55_header_never_wrong.

(** ** A small pack, and damaged ones *)
Definition filler (n : nat) : list Z := repeat 0 n.
Definition id7 : list Z := repeat 7 20.
Definition id8 : list Z := repeat 8 20.
Definition id9 : list Z := repeat 9 20.
(** 12: a blob; 14: an offset delta against it; 17: a delta against 14 by id; 39: a
    delta against itself by id; 61: a delta with a stream cut short; 83: a delta with a
    corrupt stream; 105: type 5; 107: by an id the index places behind the end. *)
Definition ex_file : list Z :=
  filler 12 ++ [51; 1] ++ [102; 2; 2] ++ ([116] ++ id7 ++ [3]) ++ ([116] ++ id8 ++ [3]) ++ ([116] ++ id7 ++ [4]) ++ ([116] ++ id7 ++ [5])
  ++ [83; 1] ++ ([116] ++ id9 ++ [3]) ++ filler 20.
Definition ex_inflate (l : list Z) : zstr :=
  match l with
  | c :: _ => if c =? 1 then ZDone [97; 98; 99] else if c =? 2 then ZDone [3; 4; 144; 3; 1; 100] else if c =? 3 then ZDone [4; 4; 144; 4]
              else if c =? 4 then ZShort [] else ZBad []
  | [] => ZShort []
  end.
Definition ex_find (id : list Z) : res Z :=
  match id with c :: _ => if c =? 7 then Ok 14 else if c =? 8 then Ok 39 else if c =? 9 then Ok 1000 else Err (-3) | [] => Err (-3) end.
Definition ex : pack := {| pk_file := ex_file; pk_oid := 20; pk_find := ex_find; pk_inflate := ex_inflate; pk_win := fun _ => 1000%nat |}.

Lemma ex_ok : pack_ok ex.
Proof.
  split.
  - apply Forall_forall. apply (proj1 (forallb_forall is_byteb ex_file)) with (2 := eq_refl) || idtac. intros x I0. apply is_byteb_true. revert x I0. apply forallb_forall. vm_compute. reflexivity.
  - vm_compute. reflexivity.
  - cbn. lia.
  - intros off H. cbn [pk_win ex pk_oid]. lia.
  - intros id o. cbn [pk_find ex]. unfold ex_find. destruct id as [|c ?]; [discriminate|]. destruct (c =? 7), (c =? 8), (c =? 9); intros E; try discriminate; injection E as <-; lia.
Qed.
Lemma ex_inflates : inflates_bytes ex.
Proof.
  intros l d. cbn [pk_inflate ex]. unfold ex_inflate. destruct l as [|c ?]; [discriminate|]. destruct (c =? 1), (c =? 2), (c =? 3), (c =? 4); intros E; try discriminate; injection E as <-;
    (split; [apply Forall_forall; intros x I0; apply is_byteb_true; revert x I0; apply forallb_forall; reflexivity|cbn; lia]).
Qed.

(** Three threads interleaved; the second delta is read through the cache. *)
Example C54_ex : 
  let s := sys_run ex (sys0 3) [Start 0 17; Start 1 14; Step 0; Step 1; Step 0; Step 1; Step 0; Step 1; Step 0; Step 1; Step 0; Step 1; Step 0; Step 1; Step 0; Step 1; Step 0; Step 1; Step 0; Step 1;
     Step 0; Step 0; Step 0; Start 2 17; Step 2; Step 2; Step 2; Step 2; Step 2; Step 2; Step 2; Start 1 105; Step 1] in
  (nth_error (s_threads s) 0, nth_error (s_threads s) 1, nth_error (s_threads s) 2, map fst (c_map (s_cache s))) =
  (Some (Done 17 (Ok (3, [97; 98; 99; 100]))), Some (Done 105 (Err (-1))), Some (Done 17 (Ok (3, [97; 98; 99; 100]))), [14; 12]).
Proof. vm_compute. reflexivity. Qed.
Example C54_ex_denotes : denotes ex 17 3 [97; 98; 99; 100].
Proof.
  pose proof (C54_read_any_schedule ex 1 (Start 0 17 :: repeat (Step 0) 20) ex_ok ex_inflates) as H.
  destruct H as (_ & H & _). { constructor; [cbn; lia|]. apply Forall_forall. intros x I0. apply repeat_spec in I0. subst. exact I. }
  apply (H 0%nat 17 (Ok (3, [97; 98; 99; 100]))); [vm_compute; reflexivity|reflexivity].
Qed.
Example C55_ex : resolve_header ex 5 17 = Ok (4, 3).
Proof. reflexivity. Qed.

(** Reading need not finish: a delta whose id the index gives its own offset (or any
    cycle of such deltas) is followed for ever. *)
Theorem C54_finishes_refuted :
  exists p off, pack_ok p /\ inflates_bytes p /\ 0 <= off < pk_size p /\
    (forall n o r, nth_error (s_threads (sys_run p (sys0 1) (Start 0 off :: repeat (Step 0) n))) 0 <> Some (Done o r)) /\
    (forall fuel, resolve_type p fuel off = NoFuel).
Proof.
  exists ex, 39. split; [exact ex_ok|]. split; [exact ex_inflates|]. split; [vm_compute; split; congruence|]. split.
  - intros n o r. cbn [sys_run fold_left]. change (sys_step ex (sys0 1) (Start 0 39)) with {| s_cache := empty_cache; s_threads := [Chain 39 39 []] |}.
    assert (G : forall n st, exists st', fold_left (sys_step ex) (repeat (Step 0) n) {| s_cache := empty_cache; s_threads := [Chain 39 39 st] |} = {| s_cache := empty_cache; s_threads := [Chain 39 39 st'] |}).
    { clear. induction n as [|n IH]; intros st; [exists st; reflexivity|]. cbn [repeat fold_left].
      assert (E : sys_step ex {| s_cache := empty_cache; s_threads := [Chain 39 39 st] |} (Step 0) = {| s_cache := empty_cache; s_threads := [Chain 39 39 ({| e_key := 39; e_pos := 60; e_size := 4; e_type := 7 |} :: st)] |}).
      { cbn [sys_step s_threads nth_error tstep s_cache]. assert (C : chain_elem ex 39 = Ok ({| e_key := 39; e_pos := 60; e_size := 4; e_type := 7 |}, Some 39)) by (vm_compute; reflexivity). rewrite C. reflexivity. }
      rewrite E. apply IH. }
    destruct (G n []) as [st' ->]. discriminate.
  - induction fuel as [|f IH]; [reflexivity|]. cbn [resolve_type].
    assert (H : unpack_header ex 39 = Ok (4, 7, 40)) by (vm_compute; reflexivity). rewrite H. cbn [bindr].
    assert (B : get_delta_base ex 40 7 39 = Ok (60, 39)) by (vm_compute; reflexivity). rewrite B. cbn [bindr]. exact IH.
Qed.
Print Assumptions C54_finishes_refuted.

(** Asking for the size of a delta whose stream the file cuts short never returns,
    while reading the object reports an error. *)
Theorem C55_finishes_refuted :
  exists p off, pack_ok p /\ inflates_bytes p /\ ends p off /\ (forall fuel, resolve_header p fuel off = NoFuel) /\
    exists n, nth_error (s_threads (sys_run p (sys0 1) (Start 0 off :: repeat (Step 0) n))) 0 = Some (Done off (Err (-1))).
Proof.
  exists ex, 61. split; [exact ex_ok|]. split; [exact ex_inflates|].
  assert (H : unpack_header ex 61 = Ok (4, 7, 62)) by (vm_compute; reflexivity).
  assert (B : get_delta_base ex 62 7 61 = Ok (82, 14)) by (vm_compute; reflexivity). split; [|split].
  - constructor. intros base NB. apply names_iff in NB as [e C]; [|exact ex_ok|lia]. assert (E : chain_elem ex 61 = Ok ({| e_key := 61; e_pos := 82; e_size := 4; e_type := 7 |}, Some 14)) by (vm_compute; reflexivity).
    rewrite E in C. injection C as _ <-. apply (C54_object_ends ex 14 3 [97; 98; 99; 100] ex_ok ex_inflates ltac:(lia)).
    pose proof (C54_read_any_schedule ex 1 (Start 0 14 :: repeat (Step 0) 20) ex_ok ex_inflates) as HH.
    destruct HH as (_ & HH & _). { constructor; [cbn; lia|]. apply Forall_forall. intros x I0. apply repeat_spec in I0. subst. exact I. }
    apply (HH 0%nat 14 (Ok (3, [97; 98; 99; 100]))); [vm_compute; reflexivity|reflexivity].
  - intros f. unfold resolve_header. rewrite H. cbn [bindr]. change (is_delta 7) with true. cbn iota. rewrite B. cbn [bindr]. unfold read_header_fromstream.
    assert (SH : stream_head ex f 82 = NoFuel). { transitivity (retry f); [reflexivity|apply retry_none]. } rewrite SH. reflexivity.
  - exists 20%nat. vm_compute. reflexivity.
Qed.
Print Assumptions C55_finishes_refuted.

(** The size of a delta with a corrupt stream is read from uninitialised memory
    beyond a local buffer; and an index that places an object behind the end of the
    pack makes both kinds of read leave the mapped file. *)
Theorem C55_safe_refuted :
  exists p off off', pack_ok p /\ inflates_bytes p /\
    (forall fuel, resolve_header p fuel off = UB) /\
    (pk_find p id9 = Ok off' /\ pk_size p <= off' /\ unpack_header p off' = UB).
Proof.
  exists ex, 83, 1000. split; [exact ex_ok|]. split; [exact ex_inflates|]. split; [|split; [reflexivity|split; [vm_compute; congruence|vm_compute; reflexivity]]].
  intros f. unfold resolve_header. assert (H : unpack_header ex 83 = Ok (4, 7, 84)) by (vm_compute; reflexivity). rewrite H. cbn [bindr]. change (is_delta 7) with true. cbn iota.
  assert (B : get_delta_base ex 84 7 83 = Ok (104, 14)) by (vm_compute; reflexivity). rewrite B. reflexivity.
Qed.
Print Assumptions C55_safe_refuted.

(** An entry of the reserved type 5 has a size and a type, but cannot be read. *)
Theorem C55_reserved_type_refuted :
  exists p off fuel sz, pack_ok p /\ inflates_bytes p /\ resolve_header p fuel off = Ok (sz, 5) /\ forall ty d, ~ denotes p off ty d.
Proof.
  exists ex, 105, 1%nat, 3. split; [exact ex_ok|]. split; [exact ex_inflates|]. split; [vm_compute; reflexivity|]. intros ty d D.
  pose proof (C54_read_any_schedule ex 1 (Start 0 105 :: repeat (Step 0) 20) ex_ok ex_inflates) as HH.
  destruct HH as (_ & HH & _). { constructor; [cbn; lia|]. apply Forall_forall. intros x I0. apply repeat_spec in I0. subst. exact I. }
  apply (HH 0%nat 105 (Err (-1)) ty d) in D; [discriminate|vm_compute; reflexivity].
Qed.
Print Assumptions C55_reserved_type_refuted.

(** No undefined behaviour where the index stays inside the pack, up to the delta
    headers of C02. *)
Theorem C54_header_inside : forall p off, pack_ok p -> 0 <= off < pk_size p -> unpack_header p off <> UB /\ unpack_header p off <> NoFuel.
Proof.
  intros p off P Ho. unfold unpack_header. destruct (Z.ltb_spec off (pk_size p)); [|lia].
  assert (NE : win_at p off <> []).
  { pose proof (po_win p P off Ho) as W. pose proof (rest_len p off ltac:(lia)) as RL. pose proof (po_oid p P). intros E. apply (f_equal (@length Z)) in E. unfold win_at in E. rewrite firstn_length in E. cbn [length] in E. lia. }
  destruct (C25_header_safe (win_at p off) (win_bytes p off P) NE) as [A B]. destruct (unpack_header1 (win_at p off)) as [[[u s0] t]| | |]; cbn [bindr]; try contradiction; split; discriminate.
Qed.
Print Assumptions C54_header_inside.
