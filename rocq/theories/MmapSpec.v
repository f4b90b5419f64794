(** What a mailmap means, by its history. *)
From Verif Require Import Base Str MmapModel.

(** One call of git_mailmap_add_entry: real name, real email, name and email to replace. *)
Record madd := mkadd { a_rname : option (list Z); a_remail : option (list Z); a_name : option (list Z); a_email : list Z }.
(** A string that is given and not empty. *)
Definition given (o : option (list Z)) : bool := match o with Some (_ :: _) => true | _ => false end.
Definition value (o : option (list Z)) (d : list Z) : list Z := match o with Some (c :: s) => c :: s | _ => d end.
(** The addition for exactly this name and email, and the one for any name with this email. *)
Definition exact (name email : list Z) (a : madd) : bool := given (a_name a) && leqb (value (a_name a) []) name && leqb (a_email a) email.
Definition general (email : list Z) (a : madd) : bool := negb (given (a_name a)) && leqb (a_email a) email.
(** The last one that fits. *)
Definition latest (p : madd -> bool) (h : list madd) : option madd := find p (rev h).
Definition resolved (h : list madd) (name email : list Z) : list Z * list Z :=
  match latest (exact name email) h with
  | Some a => (value (a_rname a) name, value (a_remail a) email)
  | None =>
    match latest (general email) h with
    | Some a => (value (a_rname a) name, value (a_remail a) email)
    | None => (name, email)
    end
  end.

(** A sequence of calls of git_mailmap_add_entry that all succeed, or the first error. *)
Fixpoint mm_adds (l : list mment) (h : list madd) : res (list mment) :=
  match h with
  | [] => Ok l
  | a :: h => do l <- mm_add l (a_rname a) (a_remail a) (a_name a) (a_email a) ;; mm_adds l h
  end.
