(** The object cache, src/libgit2/cache.c: many threads get, store, release and clear.
    Each atomic reference count operation, each lock operation and each access to the
    table is one step; threads interleave freely.

    Simplifications.  The sizes and limits that decide whether an object is cached,
    whether the cache is over its limit, and whether caching is switched off
    (cache.c:22-37, 141-145, 174-185) are replaced by a free choice at each of those
    tests, so every configuration and every change of configuration while running is
    covered; used_memory and current_storage are therefore not kept.  The table is an
    association list (the hash table itself is C08); an allocation failure inside put
    (cache.c:188, 204) is a free choice as well.  Ids are numbers. *)
From Verif Require Import Base.
Local Open Scope Z_scope.

Definition RAW : Z := 1.
Definition PARSED : Z := 2.

(** What does not change in a git_cached_obj once stored (cache.h:26-32). *)
Record cobj := { o_oid : Z; o_flags : Z; o_content : list Z }.

(** Where a thread is.
    [G1]..[G4]: cache_get; [S1]..[S9]: cache_store; [E*]: cache_evict_entries;
    [CL*]: clear_cache.  [k] after a clear: the entry the caller returns, if the
    clear is part of a store ([CKstore]: cache.c:177-180, [CKevict]: cache.c:186),
    or nothing (git_cache_clear). *)
Inductive cont := CKclear | CKoff (p : nat) | CKevict (p : nat).
Inductive pc :=
| Idle
| G1 (oid flags : Z)              (* before rdlock, cache.c:151 *)
| G2 (oid flags : Z)              (* locked, before the lookup, cache.c:154 *)
| G3 (oid flags : Z) (p : nat)    (* before incref, cache.c:158 *)
| G4 (oid flags : Z) (r : option nat) (* before unlock, cache.c:162 *)
| S1 (p : nat)                    (* before incref, cache.c:171 *)
| S2 (p : nat)                    (* before the tests, cache.c:173-179 *)
| S4 (p : nat)                    (* before wrlock, cache.c:181 *)
| S5 (p : nat)                    (* locked, before the storage test, cache.c:185 *)
| S6 (p : nat)                    (* before the lookup, cache.c:189 *)
| S7 (p : nat)                    (* put done, before incref of the entry, cache.c:191, 207 *)
| S7a (p q : nat)                 (* same flags or failed put: before decref of the entry, cache.c:199, 209 *)
| S7b (p q : nat)                 (* before incref of the stored entry, cache.c:200, 210 *)
| S7c (p q : nat)                 (* replaced: before decref of the old entry, cache.c:206 *)
| S9 (p r : nat)                  (* before unlock, cache.c:218 *)
| E1 (p : nat) (n : nat)          (* n more to evict, cache.c:122 *)
| E2 (p q : nat) (n : nat)        (* removed q, before its decref, cache.c:132 *)
| CL0 (k : cont)                  (* before wrlock, cache.c:78 *)
| CL1 (todo : list nat) (k : cont) (* decref the entries, cache.c:68-69 *)
| CL2 (k : cont)                  (* before wrunlock, cache.c:83 *).

(** [t_log]: finished gets with their result; [t_put]: finished stores, the object
    given and the object returned. *)
Record thread := { t_pc : pc; t_held : list nat; t_log : list (Z * Z * option nat); t_put : list (nat * nat) }.

Record cache := {
  c_objs : list cobj;             (* every object ever allocated *)
  c_rc : list (option Z);         (* its reference count; None once freed *)
  c_map : list (Z * nat);         (* id to entry *)
  c_rd : nat; c_wr : bool;        (* the rwlock *)
  c_thr : list thread }.

Fixpoint lookup (m : list (Z * nat)) (oid : Z) : option nat :=
  match m with [] => None | (k, p) :: r => if k =? oid then Some p else lookup r oid end.
Fixpoint remove_key (m : list (Z * nat)) (oid : Z) : list (Z * nat) :=
  match m with [] => [] | (k, p) :: r => if k =? oid then r else (k, p) :: remove_key r oid end.
(** hashmap put: replaces or adds. *)
Fixpoint put (m : list (Z * nat)) (oid : Z) (p : nat) : list (Z * nat) :=
  match m with [] => [(oid, p)] | (k, q) :: r => if k =? oid then (oid, p) :: r else (k, q) :: put r oid p end.

(** Err 0: the step is not possible now.  UB: a freed object is touched. *)
Definition nope {A} : res A := Err 0.

Definition with_rc (s : cache) rc := {| c_objs := c_objs s; c_rc := rc; c_map := c_map s; c_rd := c_rd s; c_wr := c_wr s; c_thr := c_thr s |}.
Definition with_map (s : cache) m := {| c_objs := c_objs s; c_rc := c_rc s; c_map := m; c_rd := c_rd s; c_wr := c_wr s; c_thr := c_thr s |}.
Definition with_lock (s : cache) rd wr := {| c_objs := c_objs s; c_rc := c_rc s; c_map := c_map s; c_rd := rd; c_wr := wr; c_thr := c_thr s |}.
Definition with_thr (s : cache) t th := {| c_objs := c_objs s; c_rc := c_rc s; c_map := c_map s; c_rd := c_rd s; c_wr := c_wr s; c_thr := upd (c_thr s) t th |}.
Definition go (th : thread) (p : pc) : thread := {| t_pc := p; t_held := t_held th; t_log := t_log th; t_put := t_put th |}.
Definition give (th : thread) (p r : nat) : thread := {| t_pc := Idle; t_held := r :: t_held th; t_log := t_log th; t_put := (p, r) :: t_put th |}.

(** git_cached_obj_incref, cache.h:64-68. *)
Definition incref (s : cache) (p : nat) : res cache :=
  match nth_error (c_rc s) p with
  | Some (Some n) => Ok (with_rc s (upd (c_rc s) p (Some (n + 1))))
  | _ => UB
  end.
(** git_cached_obj_decref, cache.c:248-267. *)
Definition decref (s : cache) (p : nat) : res cache :=
  match nth_error (c_rc s) p with
  | Some (Some n) => Ok (with_rc s (upd (c_rc s) p (if n - 1 =? 0 then None else Some (n - 1))))
  | _ => UB
  end.
(** Reading a field of a live object. *)
Definition deref (s : cache) (p : nat) : res cobj :=
  match nth_error (c_rc s) p, nth_error (c_objs s) p with
  | Some (Some _), Some o => Ok o
  | _, _ => UB
  end.

(** Removing one occurrence from the references a thread holds. *)
Fixpoint drop1 (l : list nat) (p : nat) : list nat :=
  match l with [] => [] | q :: r => if (q =? p)%nat then r else q :: drop1 r p end.

(** What a thread may start, and the choices it meets. *)
Inductive label :=
| BGet (oid flags : Z)            (* git_cache_get_raw / _parsed / _any, cache.c:235-246 *)
| BStore (o : cobj)               (* a new object (count 0) is handed to git_cache_store_*, cache.c:223-233 *)
| BDup (p : nat)                  (* another reference to one held: git_object_dup *)
| BFree (p : nat)                 (* release one held: git_object_free, git_odb_object_free *)
| BClear                          (* git_cache_clear, cache.c:76-84 *)
| Run (b : bool) (n : nat).       (* the next step, with a choice *)

(** clear_cache (cache.c:60-74) starts: nothing to do when the cache is empty. *)
Definition clear_start (s : cache) (k : cont) : pc :=
  match c_map s with [] => CL2 k | _ => CL1 (map snd (c_map s)) k end.

Definition step (s : cache) (t : nat) (l : label) : res cache :=
  match nth_error (c_thr s) t with
  | None => nope
  | Some th =>
      let at_ pc := Ok (with_thr s t (go th pc)) in
      match t_pc th, l with
      | Idle, BGet oid flags => at_ (G1 oid flags)
      | Idle, BStore o =>
          if (o_flags o =? RAW) || (o_flags o =? PARSED)
          then Ok {| c_objs := c_objs s ++ [o]; c_rc := c_rc s ++ [Some 0]; c_map := c_map s; c_rd := c_rd s; c_wr := c_wr s;
                     c_thr := upd (c_thr s) t (go th (S1 (length (c_objs s)))) |}
          else nope
      | Idle, BDup p =>
          if existsb (Nat.eqb p) (t_held th)
          then do s <- incref s p ;; Ok (with_thr s t {| t_pc := Idle; t_held := p :: t_held th; t_log := t_log th; t_put := t_put th |})
          else nope
      | Idle, BFree p =>
          if existsb (Nat.eqb p) (t_held th)
          then do s <- decref s p ;; Ok (with_thr s t {| t_pc := Idle; t_held := drop1 (t_held th) p; t_log := t_log th; t_put := t_put th |})
          else nope
      | Idle, BClear => at_ (CL0 CKclear)
      (* cache_get, cache.c:147-165 *)
      | G1 oid flags, Run b _ =>
          if b then (if c_wr s then nope else Ok (with_thr (with_lock s (S (c_rd s)) (c_wr s)) t (go th (G2 oid flags))))
          else Ok (with_thr s t {| t_pc := Idle; t_held := t_held th; t_log := (oid, flags, None) :: t_log th; t_put := t_put th |})
      | G2 oid flags, Run _ _ =>
          match lookup (c_map s) oid with
          | None => at_ (G4 oid flags None)
          | Some p =>
              do o <- deref s p ;;
              if negb (flags =? 0) && negb (o_flags o =? flags) then at_ (G4 oid flags None) else at_ (G3 oid flags p)
          end
      | G3 oid flags p, Run _ _ => do s <- incref s p ;; Ok (with_thr s t (go th (G4 oid flags (Some p))))
      | G4 oid flags r, Run _ _ =>
          Ok (with_thr (with_lock s (c_rd s - 1) (c_wr s)) t
                {| t_pc := Idle; t_held := match r with Some p => p :: t_held th | None => t_held th end; t_log := (oid, flags, r) :: t_log th; t_put := t_put th |})
      (* cache_store, cache.c:167-221 *)
      | S1 p, Run _ _ => do s <- incref s p ;; Ok (with_thr s t (go th (S2 p)))
      | S2 p, Run b n =>
          if b then at_ (S4 p)
          else match n with O => at_ (CL0 (CKoff p)) | S _ => Ok (with_thr s t (give th p p)) end
      | S4 p, Run b _ =>
          if b then (if c_wr s || negb (c_rd s =? 0)%nat then nope else Ok (with_thr (with_lock s (c_rd s) true) t (go th (S5 p))))
          else Ok (with_thr s t (give th p p))
      | S5 p, Run b _ =>
          if b then
            let n := Nat.max 8 (length (c_map s) / 2048) in
            if (length (c_map s) <? n)%nat then at_ (clear_start s (CKevict p)) else at_ (E1 p n)
          else at_ (S6 p)
      | S6 p, Run b _ =>
          do o <- deref s p ;;
          match lookup (c_map s) (o_oid o) with
          | None => if b then Ok (with_thr (with_map s (put (c_map s) (o_oid o) p)) t (go th (S7 p))) else at_ (S9 p p)
          | Some q =>
              do oq <- deref s q ;;
              if o_flags oq =? o_flags o then at_ (S7a p q)
              else if (o_flags oq =? RAW) && (o_flags o =? PARSED)
              then (if b then Ok (with_thr (with_map s (put (c_map s) (o_oid o) p)) t (go th (S7c p q))) else at_ (S7a p q))
              else at_ (S9 p p)
          end
      | S7 p, Run _ _ => do s <- incref s p ;; Ok (with_thr s t (go th (S9 p p)))
      | S7a p q, Run _ _ => do s <- decref s p ;; Ok (with_thr s t (go th (S7b p q)))
      | S7b p q, Run _ _ => do s <- incref s q ;; Ok (with_thr s t (go th (S9 p q)))
      | S7c p q, Run _ _ => do s <- decref s q ;; Ok (with_thr s t (go th (S7 p)))
      | S9 p r, Run _ _ => Ok (with_thr (with_lock s (c_rd s) false) t (give th p r))
      (* cache_evict_entries, cache.c:100-139: the iteration order is a free choice *)
      | E1 p O, Run _ _ => at_ (S6 p)
      | E1 p (S n), Run _ i =>
          match nth_error (c_map s) i with
          | Some (k, q) => do o <- deref s q ;; Ok (with_thr (with_map s (remove_key (c_map s) k)) t (go th (E2 p q n)))
          | None => nope
          end
      | E2 p q n, Run _ _ => do s <- decref s q ;; Ok (with_thr s t (go th (E1 p n)))
      (* git_cache_clear, cache.c:76-84, and clear_cache, cache.c:60-74 *)
      | CL0 k, Run b _ =>
          if b then (if c_wr s || negb (c_rd s =? 0)%nat then nope
                     else Ok (with_thr (with_lock s (c_rd s) true) t (go th (clear_start s k))))
          else match k with CKclear => at_ Idle | CKoff p | CKevict p => Ok (with_thr s t (give th p p)) end
      | CL1 [] k, Run _ _ => Ok (with_thr (with_map s []) t (go th (CL2 k)))
      | CL1 (q :: r) k, Run _ _ => do s <- decref s q ;; Ok (with_thr s t (go th (CL1 r k)))
      | CL2 k, Run _ _ =>
          match k with
          | CKclear => Ok (with_thr (with_lock s (c_rd s) false) t (go th Idle))
          | CKoff p => Ok (with_thr (with_lock s (c_rd s) false) t (give th p p))
          | CKevict p => at_ (S6 p)
          end
      | _, _ => nope
      end
  end.

(** git_cache_init, cache.c:49-58, with [n] threads. *)
Definition cache_init (n : nat) : cache :=
  {| c_objs := []; c_rc := []; c_map := []; c_rd := 0; c_wr := false; c_thr := repeat {| t_pc := Idle; t_held := []; t_log := []; t_put := [] |} n |}.

(** A schedule: which thread does what.  Steps that are not possible are skipped. *)
Fixpoint run (s : cache) (sched : list (nat * label)) : res cache :=
  match sched with
  | [] => Ok s
  | (t, l) :: r => match step s t l with Ok s' => run s' r | UB => UB | NoFuel => UB | Err _ => run s r end
  end.
