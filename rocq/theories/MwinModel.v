(** The memory windows through which packs are read, src/libgit2/mwindow.c.  Every function holds one
    mutex from beginning to end (closing the descriptors at the end of git_mwindow_file_register is left
    out), so the threads' calls happen one after the other: a history is a list of calls.  A window is
    known by a number that stands for its address; allocations succeed, mmap may fail. *)
From Verif Require Import Base.

Definition u64 (x : Z) : Z := x mod 2 ^ 64.
(** git_mwindow, mwindow.h:20-26. *)
Record win := mkwin { w_id : nat; w_off : Z; w_len : Z; w_last : Z; w_inuse : Z }.
(** git_mwindow_file, mwindow.h:28-33 without lock and descriptor. *)
Record mfile := mkf { f_size : Z; f_wins : list win }.
(** git_mwindow_ctl, mwindow.h:35-43 without the statistics; the settings (mwindow.c:29-31); the files;
    and the callers' cursors that are not NULL, with the window they point to. *)
Record ctl := mkc { c_mapped : Z; c_open : Z; c_ctr : Z; c_reg : list nat; c_files : list mfile; c_next : nat;
  c_wsize : Z; c_limit : Z; c_flimit : Z; c_curs : list (nat * nat) }.
Definition start : ctl := mkc 0 0 0 [] [] 0 (2 ^ 30) (2 ^ 33) 0 [].

Definition wins_of (c : ctl) (f : nat) : list win := match nth_error (c_files c) f with Some x => f_wins x | None => [] end.
Definition size_of (c : ctl) (f : nat) : Z := match nth_error (c_files c) f with Some x => f_size x | None => 0 end.
Fixpoint set_nth {A} (l : list A) (n : nat) (g : A -> A) : list A :=
  match l, n with
  | [], _ => []
  | x :: r, O => g x :: r
  | x :: r, S n => x :: set_nth r n g
  end.
Definition set_wins (fs : list mfile) (f : nat) (g : list win -> list win) : list mfile := set_nth fs f (fun x => mkf (f_size x) (g (f_wins x))).
Fixpoint remove_nth {A} (l : list A) (n : nat) : list A :=
  match l, n with
  | [], _ => []
  | _ :: r, O => r
  | x :: r, S n => x :: remove_nth r n
  end.
Fixpoint remove_first (l : list nat) (n : nat) : list nat :=
  match l with
  | [] => []
  | x :: r => if (x =? n)%nat then r else x :: remove_first r n
  end.
Definition cursor (c : ctl) (cu : nat) : option nat := option_map snd (find (fun p => (fst p =? cu)%nat) (c_curs c)).
Definition drop_cursor (l : list (nat * nat)) (cu : nat) : list (nat * nat) := filter (fun p => negb (fst p =? cu)%nat) l.
(** Following a pointer to a window: None when it was freed. *)
Definition live (c : ctl) (id : nat) : option win := find (fun w => (w_id w =? id)%nat) (concat (map f_wins (c_files c))).
(** Changing the window at an address. *)
Definition at_win (fs : list mfile) (id : nat) (g : win -> win) : list mfile := map (fun x => mkf (f_size x) (map (fun w => if (w_id w =? id)%nat then g w else w) (f_wins x))) fs.
(** inuse_cnt-- and inuse_cnt++ of a size_t. *)
Definition dec_use (w : win) : win := mkwin (w_id w) (w_off w) (w_len w) (w_last w) (u64 (w_inuse w - 1)).
Definition use (last : Z) (w : win) : win := mkwin (w_id w) (w_off w) (w_len w) last (u64 (w_inuse w + 1)).

(** git_mwindow_contains, mwindow.c:188-193. *)
Definition contains (w : win) (offset extra : Z) : bool := (w_off w <=? offset) && (offset + extra <=? w_off w + w_len w).

(** git_mwindow_scan_recently_used, mwindow.c:206-250: the candidate is a file, a position in its list
    (standing for the window and the one before it) and a last_used.  [-1 * last_used] is computed in
    size_t. *)
Notation cand := (option (nat * nat * Z))%type.
Fixpoint scan_from (only_unused : bool) (sign : Z) (f : nat) (k : nat) (ws : list win) (out : cand) (found : bool) : bool * cand :=
  match ws with
  | [] => (found, out)
  | w :: r =>
    if negb (w_inuse w =? 0) then if only_unused then (false, out) else scan_from only_unused sign f (S k) r out found
    else if match out with None => true | Some (_, _, last) => last <? u64 (sign * w_last w) end
         then scan_from only_unused sign f (S k) r (Some (f, k, w_last w)) true
         else scan_from only_unused sign f (S k) r out found
  end.
Definition scan (only_unused : bool) (sign : Z) (c : ctl) (f : nat) (out : cand) : bool * cand :=
  match scan_from only_unused sign f 0 (wins_of c f) out false with
  | (true, o) => (true, o)
  | (false, _) => (false, out)
  end.
(** git_mwindow_close_lru_window_locked, mwindow.c:256-288: None for -1. *)
Definition close_lru (c : ctl) : option ctl :=
  match fold_left (fun out f => snd (scan false (-1) c f out)) (c_reg c) None with
  | None => None
  | Some (f, k, _) =>
      match nth_error (wins_of c f) k with
      | None => None
      | Some w => Some (mkc (u64 (c_mapped c - w_len w)) (c_open c - 1) (c_ctr c) (c_reg c) (set_wins (c_files c) f (fun ws => remove_nth ws k)) (c_next c) (c_wsize c) (c_limit c) (c_flimit c) (c_curs c))
      end
  end.
(** git_mwindow_find_lru_file_locked, mwindow.c:297-325. *)
Definition find_lru_file (c : ctl) : option nat :=
  option_map fst
    (fold_left (fun (acc : option (nat * Z)) f =>
       match scan true 1 c f None with
       | (true, Some (_, _, last)) => if match acc with None => true | Some (_, l) => last <? l end then Some (f, last) else acc
       | _ => acc
       end) (c_reg c) None).

(** The loops over close_lru, mwindow.c:350-351 and 365-366. *)
Definition windows (c : ctl) : nat := length (concat (map f_wins (c_files c))).
Fixpoint close_while (fuel : nat) (all : bool) (c : ctl) : res ctl :=
  match fuel with
  | O => NoFuel
  | S n => if all || (c_limit c <? c_mapped c) then match close_lru c with Some c => close_while n all c | None => Ok c end else Ok c
  end.
(** new_window_locked, mwindow.c:328-385; [mm] are the results of the two tries of mmap.  The new window
    is not in a list yet.  (A window size below 2 divides by zero.) *)
Definition with_mapped (c : ctl) (m : Z) : ctl := mkc m (c_open c) (c_ctr c) (c_reg c) (c_files c) (c_next c) (c_wsize c) (c_limit c) (c_flimit c) (c_curs c).
Definition new_window (c : ctl) (size offset : Z) (mm : bool * bool) : res (option win * ctl) :=
  let walign := c_wsize c / 2 in
  if walign =? 0 then UB
  else
    let off := (offset / walign) * walign in
    let len := if c_wsize c <? size - off then c_wsize c else size - off in
    do c <- close_while (S (windows c)) false (with_mapped c (u64 (c_mapped c + len))) ;;
    do p <- (if fst mm then Ok (true, c) else do c <- close_while (S (windows c)) true c ;; Ok (snd mm, c)) ;;
    let '(ok, c) := p in
    if ok : bool
    then Ok (Some (mkwin (c_next c) off len 0 0), mkc (c_mapped c) (c_open c + 1) (c_ctr c) (c_reg c) (c_files c) (S (c_next c)) (c_wsize c) (c_limit c) (c_flimit c) (c_curs c))
    else Ok (None, c).
(** git_mwindow_open, mwindow.c:391-446: None for NULL, else the window, the offset in it and [left]. *)
Definition with_files (c : ctl) (fs : list mfile) : ctl := mkc (c_mapped c) (c_open c) (c_ctr c) (c_reg c) fs (c_next c) (c_wsize c) (c_limit c) (c_flimit c) (c_curs c).
Definition answer (w : win) (offset : Z) : nat * Z * Z := (w_id w, offset - w_off w, (w_len w - (offset - w_off w)) mod 2 ^ 32).
Definition mopen (c : ctl) (f cu : nat) (offset extra : Z) (mm : bool * bool) : res (option (nat * Z * Z) * ctl) :=
  do cur <- (match cursor c cu with
             | None => Ok None
             | Some id => match live c id with Some w => Ok (Some w) | None => UB end
             end) ;;
  match (match cur with Some w => if contains w offset extra then Some w else None | None => None end) with
  | Some w => Ok (Some (answer w offset), c)
  | None =>
      let c := match cur with Some w => with_files c (at_win (c_files c) (w_id w) dec_use) | None => c end in
      do p <- (match find (fun w => contains w offset extra) (wins_of c f) with
               | Some w => Ok (Some w, c)
               | None =>
                   do p <- new_window c (size_of c f) offset mm ;;
                   match p with
                   | (Some w, c) => Ok (Some w, with_files c (set_wins (c_files c) f (fun ws => w :: ws)))
                   | (None, c) => Ok (None, c)
                   end
               end) ;;
      match p with
      | (None, c) => Ok (None, c)
      | (Some w, c) =>
          Ok (Some (answer w offset),
              mkc (c_mapped c) (c_open c) (u64 (c_ctr c + 1)) (c_reg c) (at_win (c_files c) (w_id w) (use (c_ctr c))) (c_next c) (c_wsize c) (c_limit c) (c_flimit c)
                  ((cu, w_id w) :: drop_cursor (c_curs c) cu))
      end
  end.
(** git_mwindow_close, mwindow.c:530-543. *)
Definition mclose (c : ctl) (cu : nat) : res ctl :=
  match cursor c cu with
  | None => Ok c
  | Some id => match live c id with
               | None => UB
               | Some w => Ok (mkc (c_mapped c) (c_open c) (c_ctr c) (c_reg c) (at_win (c_files c) id dec_use) (c_next c) (c_wsize c) (c_limit c) (c_flimit c) (drop_cursor (c_curs c) cu))
               end
  end.
(** git_mwindow_free_all_locked, mwindow.c:133-165: -1 at the first window in use. *)
Fixpoint free_list (ws : list win) : Z * Z * list win * Z :=
  match ws with
  | [] => (0, 0, [], 0)
  | w :: r => if negb (w_inuse w =? 0) then (0, 0, ws, -1) else let '(len, n, rest, e) := free_list r in (w_len w + len, 1 + n, rest, e)
  end.
Definition free_all (c : ctl) (f : nat) : Z * ctl :=
  let '(len, n, rest, e) := free_list (wins_of c f) in
  (e, mkc (u64 (c_mapped c - len)) (c_open c - n) (c_ctr c) (remove_first (c_reg c) f) (set_wins (c_files c) f (fun _ => rest)) (c_next c) (c_wsize c) (c_limit c) (c_flimit c) (c_curs c)).
(** git_mwindow_file_register, mwindow.c:448-509, under the lock. *)
Fixpoint close_files (fuel : nat) (c : ctl) : res ctl :=
  match fuel with
  | O => NoFuel
  | S n => if c_flimit c <=? Z.of_nat (length (c_reg c)) then match find_lru_file c with Some f => close_files n (snd (free_all c f)) | None => Ok c end else Ok c
  end.
Definition with_reg (c : ctl) (r : list nat) : ctl := mkc (c_mapped c) (c_open c) (c_ctr c) r (c_files c) (c_next c) (c_wsize c) (c_limit c) (c_flimit c) (c_curs c).
Definition mregister (c : ctl) (f : nat) : res ctl :=
  do c <- (if c_flimit c =? 0 then Ok c else close_files (S (length (c_reg c))) c) ;; Ok (with_reg c (c_reg c ++ [f])).
(** git_mwindow_file_deregister, mwindow.c:511-528. *)
Definition mderegister (c : ctl) (f : nat) : ctl := with_reg c (remove_first (c_reg c) f).

(** Histories.  [MFile]: a file of this size comes into being; [MSettings]: git_libgit2_opts. *)
Inductive mop := MFile (size : Z) | MSettings (wsize limit flimit : Z) | MOpen (f cu : nat) (offset extra : Z) (mm : bool * bool) | MClose (cu : nat)
  | MFreeAll (f : nat) | MRegister (f : nat) | MDeregister (f : nat).
Inductive manswer := ANone | AAddr (w : nat) (delta left : Z) | ANull | ACode (e : Z).
Definition mstep (c : ctl) (o : mop) : res (manswer * ctl) :=
  match o with
  | MFile s => Ok (ANone, with_files c (c_files c ++ [mkf s []]))
  | MSettings a b d => Ok (ANone, mkc (c_mapped c) (c_open c) (c_ctr c) (c_reg c) (c_files c) (c_next c) a b d (c_curs c))
  | MOpen f cu offset extra mm => do p <- mopen c f cu offset extra mm ;; Ok (match fst p with Some (w, d, l) => AAddr w d l | None => ANull end, snd p)
  | MClose cu => do c <- mclose c cu ;; Ok (ANone, c)
  | MFreeAll f => let '(e, c) := free_all c f in Ok (ACode e, c)
  | MRegister f => do c <- mregister c f ;; Ok (ACode 0, c)
  | MDeregister f => Ok (ANone, mderegister c f)
  end.
Fixpoint mrun (c : ctl) (ops : list mop) : res (list manswer * ctl) :=
  match ops with
  | [] => Ok ([], c)
  | o :: r => do p <- mstep c o ;; do q <- mrun (snd p) r ;; Ok (fst p :: fst q, snd q)
  end.

(** *** The packs shared by repositories *)
(** git_mwindow_get_pack and git_mwindow_put_pack, mwindow.c:63-127: the map from names to packs, with
    the count of each; freed packs are remembered. *)
Record pstate := mkp { p_cache : list (list Z * nat); p_count : list (nat * Z); p_next : nat; p_freed : list nat }.
Definition pack_name (s : pstate) (name : list Z) : option nat := option_map snd (find (fun e => if list_eq_dec Z.eq_dec (fst e) name then true else false) (p_cache s)).
Definition count_of (s : pstate) (p : nat) : Z := match find (fun e => (fst e =? p)%nat) (p_count s) with Some e => snd e | None => 0 end.
Definition set_count (l : list (nat * Z)) (p : nat) (n : Z) : list (nat * Z) := (p, n) :: filter (fun e => negb (fst e =? p)%nat) l.
Definition get_pack (s : pstate) (name : list Z) : nat * pstate :=
  match pack_name s name with
  | Some p => (p, mkp (p_cache s) (set_count (p_count s) p (count_of s p + 1)) (p_next s) (p_freed s))
  | None => (p_next s, mkp ((name, p_next s) :: p_cache s) (set_count (p_count s) (p_next s) 1) (S (p_next s)) (p_freed s))
  end.
(** The name of the pack is read from the pack: a freed one is undefined behaviour; -1 when the map has
    no pack of that name (the mutex stays locked then). *)
Definition put_pack (s : pstate) (name : list Z) (p : nat) : res (Z * pstate) :=
  if existsb (fun q => (q =? p)%nat) (p_freed s) then UB
  else match pack_name s name with
       | None => Ok (-1, s)
       | Some _ =>
           let n := count_of s p - 1 in
           if n =? 0
           then Ok (0, mkp (filter (fun e => if list_eq_dec Z.eq_dec (fst e) name then false else true) (p_cache s)) (set_count (p_count s) p n) (p_next s) (p :: p_freed s))
           else Ok (0, mkp (p_cache s) (set_count (p_count s) p n) (p_next s) (p_freed s))
       end.
