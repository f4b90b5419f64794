(** C02 (applying deltas) and C03 (creating deltas). *)
From Verif Require Import Base DeltaTables DeltaModel DeltaSpec DeltaApplyProofs DeltaCreateProofs.

(** A delta with ordinary size headers (at most five bytes each): applying it gives
    exactly the output the format defines, and fails exactly when there is none of
    the announced sizes. *)
Theorem delta_apply_exact : forall base h1 b h2 r body,
  size_code h1 b -> size_code h2 r -> (length h1 <= 5)%nat -> (length h2 <= 5)%nat ->
  bytes body -> Z.of_nat (length base) < 2 ^ 64 ->
  (exists out, delta_apply base (h1 ++ h2 ++ body) = Ok out /\
     b mod 2 ^ 32 = Z.of_nat (length base) /\
     r mod 2 ^ 32 = Z.of_nat (length out) /\ delta_body base body out) \/
  (delta_apply base (h1 ++ h2 ++ body) = Err (-1) /\
   forall out, delta_body base body out ->
     b mod 2 ^ 32 <> Z.of_nat (length base) \/ r mod 2 ^ 32 <> Z.of_nat (length out)).
Proof. exact delta_apply_wf. Qed.
Print Assumptions delta_apply_exact.

(** The output a delta body denotes is unique. *)
Theorem delta_body_deterministic : forall base body out1 out2,
  delta_body base body out1 -> delta_body base body out2 -> out1 = out2.
Proof. exact (fun base body o1 o2 H1 H2 => delta_body_fun base body o1 H1 o2 H2). Qed.
Print Assumptions delta_body_deterministic.

(** For every byte string: success is only reported with the output the format
    defines, of the announced length, from a base of the announced length. *)
Theorem delta_apply_sound : forall base delta out,
  bytes delta -> Z.of_nat (length base) < 2 ^ 64 ->
  delta_apply base delta = Ok out ->
  exists h1 b h2 r body,
    delta = h1 ++ h2 ++ body /\ size_code h1 b /\ size_code h2 r /\
    b mod 2 ^ 32 = Z.of_nat (length base) /\ r mod 2 ^ 32 = Z.of_nat (length out) /\
    delta_body base body out.
Proof. exact delta_apply_ok_inv. Qed.
Print Assumptions delta_apply_sound.

(** Memory safety on hostile deltas: any byte string is processed to completion
    without out-of-bounds access unless a size header has five continuation bytes. *)
Theorem delta_apply_safe_partial : forall base delta,
  bytes delta -> Z.of_nat (length base) < 2 ^ 64 ->
  delta_apply base delta <> NoFuel /\
  (delta_apply base delta = UB ->
   exists pre l rest, delta = pre ++ l ++ rest /\ (5 <= length l)%nat /\
     Forall (fun b => 128 <= b < 256) l /\
     (pre = [] \/ exists b, size_code pre b /\ b mod 2 ^ 32 = Z.of_nat (length base))).
Proof.
  intros base delta Hd Hb. split; [apply (delta_apply_no_fuel_issue base delta Hd Hb)|apply (delta_apply_ub base delta Hd Hb)].
Qed.
Print Assumptions delta_apply_safe_partial.

(** Full safety is false of the code: a header of six bytes makes [hdr_sz] shift a
    32-bit value by 35 (undefined behaviour in C).  The bytes come from the pack. *)
Theorem delta_apply_total_safety_refuted :
  exists base delta, bytes delta /\ delta_apply base delta = UB.
Proof. exists [1;2;3], [128;128;128;128;128;0;0;0]. split; [bytes_tac|reflexivity]. Qed.
Print Assumptions delta_apply_total_safety_refuted.

(** Creating a delta: for every source, target and limit, a produced delta
    rebuilds the target from the source and respects the limit; the only failures
    are the documented size refusals and "does not fit". *)
Theorem delta_create_roundtrip : forall src trg max_size d,
  bytes src -> bytes trg -> 0 <= max_size ->
  git_delta src trg max_size = Ok (Some d) ->
  delta_apply src d = Ok trg /\ (max_size <> 0 -> Z.of_nat (length d) <= max_size).
Proof.
  intros src trg m d Hs Ht Hm E. destruct src as [|s0 src0]; [discriminate|].
  unfold git_delta in E. destruct (index_init_ok (s0 :: src0) Hs ltac:(discriminate)) as (ix & Ei & Es & Ho).
  rewrite Ei in E. cbn [bindr] in E.
  pose proof (delta_create_correct ix trg m Ho ltac:(rewrite Es; exact Hs) Ht Hm) as H.
  rewrite E, Es in H. exact H.
Qed.
Print Assumptions delta_create_roundtrip.

(** Outcomes of creation: nothing for an empty source or target; otherwise a delta,
    or an error for a documented reason; memory-safe below the stated sizes. *)
Theorem delta_create_outcome_partial : forall src trg max_size,
  bytes src -> bytes trg -> 0 <= max_size ->
  match git_delta src trg max_size with
  | Ok None => src = [] \/ trg = []
  | Ok (Some _) => src <> [] /\ trg <> []
  | Err c => (c = -1 /\ (4294967295 < Z.of_nat (length src) \/ 4294967295 < Z.of_nat (length trg)
                          \/ 4294967295 - 35 < max_size))
             \/ (c = GIT_EBUFS /\ max_size <> 0)
  | UB => ~ ((max_size = 0 /\ Z.of_nat (length trg) <= 2 ^ 28) \/ 0 < max_size <= 2 ^ 30)
  | NoFuel => False
  end.
Proof.
  intros src trg m Hs Ht Hm. destruct src as [|s0 src0]; [left; reflexivity|].
  unfold git_delta. destruct (index_init_ok (s0 :: src0) Hs ltac:(discriminate)) as (ix & Ei & Es & Ho).
  rewrite Ei. cbn [bindr].
  pose proof (delta_create_correct ix trg m Ho ltac:(rewrite Es; exact Hs) Ht Hm) as H.
  destruct (delta_create ix trg m) as [[d|]| | |] eqn:E; rewrite ?Es in H; auto.
  destruct trg as [|t trg]; [|split; discriminate].
  unfold delta_create in E. cbn in E. discriminate.
Qed.
Print Assumptions delta_create_outcome_partial.

(** ** Non-vacuity *)
Definition ex_src : list Z := map (fun i => Z.of_nat i mod 251) (seq 0 100).
Definition ex_trg : list Z := [7;7;7] ++ map (fun i => Z.of_nat i mod 251) (seq 20 70) ++ [9;9].
Example delta_create_example :
  match git_delta ex_src ex_trg 0 with
  | Ok (Some d) => (Z.of_nat (length d) <? 75) = true /\ delta_apply ex_src d = Ok ex_trg
  | _ => False
  end.
Proof. vm_compute. split; reflexivity. Qed.
Example delta_create_limit_example : git_delta ex_src ex_trg 10 = Err GIT_EBUFS.
Proof. vm_compute. reflexivity. Qed.
(* tests/libgit2/delta/apply.c *)
Example delta_apply_read_at_off :
  delta_apply (repeat 0 16) [16; 16; 255; 255; 255; 255; 255; 16; 0; 0] = Err (-1).
Proof. vm_compute. reflexivity. Qed.
Example delta_apply_read_after_limit : delta_apply (repeat 0 16) [16; 112; 255] = Err (-1).
Proof. vm_compute. reflexivity. Qed.
Example delta_apply_ok_example :
  delta_apply [10;20;30;40] [4; 5; 2; 1; 2; 144 + 1; 1; 3] = Ok [1; 2; 20; 30; 40].
Proof. vm_compute. reflexivity. Qed.
