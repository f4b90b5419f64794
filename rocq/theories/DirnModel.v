(** The directory and the last part of a path (fs_path.c), not on Windows; paths shorter than 2 GiB.
    A position in the path is a number; it never leaves the path, so reading is [nth]. *)
From Verif Require Import Base Str.

(** A loop going back while [endp > path] and [c] holds of the byte at [endp]. *)
Fixpoint back (c : Z -> bool) (p : list Z) (e : nat) : nat :=
  match e with O => O | S e' => if c (nth e p 0) then back c p e' else e end.
Definition slash (c : Z) : bool := c =? 47.
(** The loop of fs_path.c:130-131. *)
Fixpoint back_start (p : list Z) (s : nat) : nat :=
  match s with O => O | S s' => if negb (slash (nth s' p 0)) then back_start p s' else s end.
(** git_fs_path_basename_r, fs_path.c:104-143 *)
Definition basename (p : list Z) : list Z :=
  match p with
  | [] => bs "."
  | _ =>
    let e := back slash p (length p - 1) in
    if (e =? 0)%nat && slash (nth e p 0) then bs "/"
    else let s := back_start p e in firstn (e - s + 1) (skipn s p)
  end.
(** git_fs_path_dirname_r, fs_path.c:177-242 *)
Definition dirname (p : list Z) : list Z :=
  match p with
  | [] => bs "."
  | _ =>
    let e := back slash p (length p - 1) in
    let e := back (fun c => negb (slash c)) p e in
    if (e =? 0)%nat then (if slash (nth e p 0) then bs "/" else bs ".")
    else let e := back slash p (e - 1) in firstn (e + 1) p
  end.
