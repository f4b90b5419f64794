(** What ignore files mean, over structured lines and path components. *)
From Verif Require Import Base Str WildModel WildSpec.

(** A line: blank, a comment, or a rule with an optional '!', an optional leading slash, a
    pattern and an optional trailing slash. *)
Inductive line : Type := Blank | Comment (t : list Z) | Rule (neg lead : bool) (pat : list Z) (dironly : bool).

Definition opt (b : bool) (c : Z) : list Z := if b then [c] else [].
Definition text_of_line (l : line) : list Z :=
  match l with
  | Blank => [10]
  | Comment t => ch "#" :: t ++ [10]
  | Rule neg lead pat d => opt neg (ch "!") ++ opt lead (ch "/") ++ pat ++ opt d (ch "/") ++ [10]
  end.
Definition text_of (ls : list line) : list Z := concat (map text_of_line ls).

(** No raw line break, form feed or vertical tab; backslashes only before a byte that is not
    white space. *)
Fixpoint tame (s : list Z) : Prop :=
  match s with
  | [] => True
  | c :: r => if c =? ch "\" then match r with [] => False | d :: r' => isspace d = false /\ tame r' end
              else ~ In c [10; 11; 12] /\ tame r
  end.
Definition wf_pat (p : list Z) : Prop :=
  cstr p /\ tame p /\ p <> [] /\ ~ In (last p 0) [ch " "; 9; 13; ch "/"] /\ hd 0 p <> ch "/".
Definition wf_line (l : line) : Prop :=
  match l with
  | Blank => True
  | Comment t => cstr t /\ ~ In 10 t
  | Rule neg lead pat d => wf_pat pat /\ (neg = false -> lead = false -> ~ In (hd 0 pat) [ch "#"; ch "!"; 13])
  end.

(** An unescaped wildcard byte *)
Fixpoint wild_pat (s : list Z) : bool :=
  match s with
  | [] => false
  | c :: r => if c =? ch "\" then match r with [] => false | _ :: r' => wild_pat r' end
              else (c =? ch "*") || (c =? ch "?") || (c =? ch "[") || wild_pat r
  end.

(** A rule and the directory of the file it stands in *)
Record rule : Type := mkrule { r_neg : bool; r_dironly : bool; r_anchored : bool; r_pat : list Z; r_from : list (list Z) }.
Definition mean (from : list (list Z)) (l : line) : list rule :=
  match l with
  | Rule neg lead pat d => [mkrule neg d (lead || existsb (Z.eqb (ch "/")) pat) pat from]
  | _ => []
  end.
Definition rules_of (from : list (list Z)) (ls : list line) : list rule := concat (map (mean from) ls).

Definition same (icase : bool) (a b : list Z) : Prop := if icase then map tolower a = map tolower b else a = b.

(** A rule matches the item with path components [q]: the item is below the rule's
    directory; a pattern with a slash is matched against the path from there, one without
    against the last component; a rule ending in a slash needs a directory. *)
Definition matches (icase : bool) (r : rule) (q : list (list Z)) (isdir : bool) : Prop :=
  (r_dironly r = true -> isdir = true) /\
  exists pre rel, q = pre ++ rel /\ rel <> [] /\ Forall2 (same icase) (r_from r) pre /\
    if r_anchored r then lang true icase (glob true (r_pat r)) (join (ch "/") rel)
    else lang false icase (glob false (r_pat r)) (last q []).

(** The last matching rule of the first rule list with a matching rule *)
Definition last_match (icase : bool) (rs : list rule) (q : list (list Z)) (isdir : bool) (v : bool) : Prop :=
  exists a r b, rs = a ++ r :: b /\ matches icase r q isdir /\ (forall x, In x b -> ~ matches icase x q isdir) /\ v = negb (r_neg r).
Definition decided (icase : bool) (srcs : list (list rule)) (q : list (list Z)) (isdir : bool) (v : bool) : Prop :=
  exists a rs b, srcs = a ++ rs :: b /\ (forall s x, In s a -> In x s -> ~ matches icase x q isdir) /\ last_match icase rs q isdir v.
Definition undecided (icase : bool) (srcs : list (list rule)) (q : list (list Z)) (isdir : bool) : Prop :=
  forall s x, In s srcs -> In x s -> ~ matches icase x q isdir.

(** The item itself if any rule matches it, else the nearest directory above it that a rule matches *)
Definition verdict (icase : bool) (srcs : list (list rule)) (q : list (list Z)) (isdir : bool) (v : bool) : Prop :=
  exists pre post, q = pre ++ post /\ pre <> [] /\
    decided icase srcs pre (match post with [] => isdir | _ => true end) v /\
    (forall pre' post', q = pre' ++ post' -> (length pre < length pre')%nat ->
       undecided icase srcs pre' (match post' with [] => isdir | _ => true end)).

(** libgit2 drops a negated rule without wildcards unless an earlier rule of the same file
    "covers" it. *)
Definition dirtext (d : list (list Z)) : list Z := concat (map (fun c => c ++ [ch "/"]) d).
Definition tail_of (icase : bool) (short long : list Z) : Prop :=
  ~ In (ch "/") short /\ exists pre s, long = pre ++ ch "/" :: s /\ same icase s short.
Definition covers (icase : bool) (r n : rule) : Prop :=
  if wild_pat (r_pat r)
  then lang (r_anchored r) icase (glob (r_anchored r) (dirtext (r_from r) ++ r_pat r)) (dirtext (r_from n) ++ r_pat n)
  else r_neg r = false /\ (same icase (r_pat r) (r_pat n) \/ tail_of icase (r_pat r) (r_pat n) \/ tail_of icase (r_pat n) (r_pat r)).
Definition droppable (r : rule) : Prop := r_neg r = true /\ wild_pat (r_pat r) = false.
Inductive effective (icase : bool) : list rule -> list rule -> Prop :=
| eff_nil : effective icase [] []
| eff_keep : forall rs es r, effective icase rs es -> (droppable r -> exists e, In e es /\ covers icase e r) ->
    effective icase (rs ++ [r]) (es ++ [r])
| eff_drop : forall rs es r, effective icase rs es -> droppable r -> (forall e, In e es -> ~ covers icase e r) ->
    effective icase (rs ++ [r]) es.

(** Directories above an item, nearest first *)
Fixpoint upward (k : nat) (d : list (list Z)) : list (list (list Z)) :=
  match k with O => [[]] | S k' => firstn k d :: upward k' d end.
Definition wf_comp (c : list Z) : Prop := c <> [] /\ cstr c /\ ~ In (ch "/") c.

(** All rule lists that apply to the item [q], most specific first: the built-in and added
    ones, the .gitignore files from the item's directory upward, the global ones. *)
Definition default_lines : list line := [Rule false false (bs ".") false; Rule false false (bs "..") false; Rule false false (bs ".git") false].
Definition dir_rules (files : list (list Z) -> option (list line)) (q : list (list Z)) : list (list rule) :=
  flat_map (fun d => match files d with Some ls => [rules_of d ls] | None => [] end) (upward (length q - 1) q).
Definition written (added : list (list line)) (files : list (list Z) -> option (list line)) (globals : list (list line)) (q : list (list Z)) : list (list rule) :=
  rules_of [] (default_lines ++ concat added) :: dir_rules files q ++ map (rules_of []) globals.

(** Everything on disk and given is well formed, and [store] holds the texts *)
Definition wf_setup (fuel : nat) (store : list Z -> option (list Z)) (added : list (list line)) (files : list (list Z) -> option (list line)) (globals : list (list line)) (q : list (list Z)) : Prop :=
  q <> [] /\ Forall wf_comp q /\
  (forall d, In d (upward (length q - 1) q) -> store (dirtext d ++ bs ".gitignore") = option_map text_of (files d)) /\
  (forall ls, In ls (default_lines :: added ++ globals) \/ (exists d, In d (upward (length q - 1) q) /\ files d = Some ls) ->
     Forall wf_line ls /\ (length (text_of ls) < fuel)%nat).
