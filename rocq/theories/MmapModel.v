(** Mailmaps (mailmap.c): entries and resolving.  Strings hold no NUL, allocations do not fail; a null
    pointer is [None].  The vector of entries is only changed by sorted insertion, so its sorted flag
    (vector.c:104-116, 184-192) is always set and it is given here as the list of its entries. *)
From Verif Require Import Base CStr Str VectorModel.

(** git_mailmap_entry, mailmap.h:19-24 *)
Record mment := mkmm { mm_rname : option (list Z); mm_remail : option (list Z); mm_name : option (list Z); mm_email : list Z }.
(** strcmp, as its sign *)
Definition scmp (a b : list Z) : Z := match lex a b with Lt => -1 | Eq => 0 | Gt => 1 end.
Definition isset (o : option (list Z)) : Z := match o with Some _ => 1 | None => 0 end.
(** mailmap_entry_cmp, mailmap.c:38-60 *)
Definition mm_cmp (a b : mment) : Z :=
  let c := scmp (mm_email a) (mm_email b) in
  if negb (c =? 0) then c
  else match mm_name a, mm_name b with
       | Some x, Some y => scmp x y
       | x, y => isset x - isset y
       end.
(** git_vector_insert_sorted (vector.c:149-182) with mailmap_entry_replace (mailmap.c:62-68): an equal
    entry is replaced in place. *)
Definition mm_insert (l : list mment) (x : mment) : res (list mment) :=
  do (found, pos) <- bsearch l (mm_cmp x) ;;
  Ok (firstn pos l ++ x :: skipn (if found then S pos else pos) l).
(** An empty string is stored as no string, mailmap.c:193-206. *)
Definition nonempty (o : option (list Z)) : option (list Z) := match o with Some [] => None | _ => o end.
(** mailmap_add_entry_unterminated, mailmap.c:180-216, and git_mailmap_add_entry, mailmap.c:218-228. *)
Definition mm_add (l : list mment) (rname remail name : option (list Z)) (email : list Z) : res (list mment) :=
  match email with
  | [] => Err (-1)
  | _ => mm_insert l (mkmm (nonempty rname) (nonempty remail) (nonempty name) email)
  end.
(** The linear search of git_mailmap_entry_lookup, mailmap.c:438-449: [Ok None] when it ends without an
    entry, an error when an assertion fails. *)
Fixpoint mm_scan (l : list mment) (name : option (list Z)) (email : list Z) : res (option mment) :=
  match l with
  | [] => Ok None
  | e :: r =>
    if negb (scmp (mm_email e) email =? 0) then Ok None
    else match mm_name e with
         | None => Err (-1)
         | Some n =>
           match name with
           | None => Ok (Some e)
           | Some x => if scmp n x =? 0 then Ok (Some e) else mm_scan r name email
           end
         end
  end.
(** git_mailmap_entry_lookup, mailmap.c:411-455; a failed assertion gives no entry. *)
Definition mm_lookup (l : list mment) (name : option (list Z)) (email : list Z) : res (option mment) :=
  do (found, pos) <- bsearch l (mm_cmp (mkmm None None None email)) ;;
  match mm_scan (skipn (if found then S pos else pos) l) name email with
  | Ok (Some e) => Ok (Some e)
  | Ok None => if found then Ok (nth_error l pos) else Ok None
  | Err _ => Ok None
  | UB => UB
  | NoFuel => NoFuel
  end.
Definition orelse (o : option (list Z)) (d : list Z) : list Z := match o with Some x => x | None => d end.
(** git_mailmap_resolve, mailmap.c:457-477 *)
Definition mm_resolve (l : list mment) (name email : list Z) : res (list Z * list Z) :=
  do e <- mm_lookup l (Some name) email ;;
  Ok (match e with
      | Some e => (orelse (mm_rname e) name, orelse (mm_remail e) email)
      | None => (name, email)
      end).
