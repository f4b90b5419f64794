(** What a user of the memory windows relies on. *)
From Verif Require Import Base MwinModel.

(** Window [w] is mapped and belongs to file [f]. *)
Definition mapped (c : ctl) (f : nat) (w : win) : Prop := exists x, nth_error (c_files c) f = Some x /\ In w (f_wins x).
(** Cursor [cu] points to window number [id]. *)
Definition holds (c : ctl) (cu id : nat) : Prop := In (cu, id) (c_curs c).
(** The size of the file. *)
Definition fsize (c : ctl) (f : nat) (s : Z) : Prop := exists x, nth_error (c_files c) f = Some x /\ f_size x = s.

(** Proper calls: an offset in the file, at least one byte wanted, a cursor that is NULL or was used with this file, and mmap does
    not fail twice when the cursor is not NULL (see the refutation); a window size of at least two bytes. *)
Definition proper (c : ctl) (o : mop) : Prop :=
  match o with
  | MFile s => 0 <= s < 2 ^ 63
  | MSettings a _ _ => 2 <= a < 2 ^ 63
  | MOpen f cu offset extra mm =>
      (exists s, fsize c f s /\ 0 <= offset < s) /\ 0 < extra /\ offset + extra < 2 ^ 63 /\
      (forall id, holds c cu id -> (exists w, mapped c f w /\ w_id w = id) /\ mm <> (false, false))
  | _ => True
  end.

(** The states reached by [n] proper calls, with the answers. *)
Inductive reached : nat -> ctl -> Prop :=
| reached_start : reached 0 start
| reached_step n c o a c' : reached n c -> proper c o -> mstep c o = Ok (a, c') -> reached (S n) c'.
Definition reachable (c : ctl) : Prop := exists n, Z.of_nat n < 2 ^ 64 - 1 /\ reached n c.

(** Reached without a failing mmap. *)
Definition mmap_works (o : mop) : Prop := match o with MOpen _ _ _ _ mm => mm = (true, true) | _ => True end.
Inductive reached_ok : nat -> ctl -> Prop :=
| reached_ok_start : reached_ok 0 start
| reached_ok_step n c o a c' : reached_ok n c -> proper c o -> mmap_works o -> mstep c o = Ok (a, c') -> reached_ok (S n) c'.

(** The bytes that are mapped, and the number of windows. *)
Definition total (c : ctl) : Z := fold_right Z.add 0 (map w_len (concat (map f_wins (c_files c)))).
Definition number (c : ctl) : Z := Z.of_nat (length (concat (map f_wins (c_files c)))).

(** *** Shared packs *)
(** The states reached by getting packs and putting back packs that one got, with those that are held:
    one entry for each time a pack was got and not put back. *)
Definition pstart : pstate := mkp [] [] 0 [].
Inductive preached : list (list Z * nat) -> pstate -> Prop :=
| preached_start : preached [] pstart
| preached_get h s name p s' : preached h s -> get_pack s name = (p, s') -> preached ((name, p) :: h) s'
| preached_put h1 h2 s name p r s' : preached (h1 ++ (name, p) :: h2) s -> put_pack s name p = Ok (r, s') -> preached (h1 ++ h2) s'.
