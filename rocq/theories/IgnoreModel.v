(** Model of src/libgit2/ignore.c and of the pattern parser and matcher it uses in
    src/libgit2/attr_file.c.  Texts and paths are byte lists without NUL; reading at the
    end yields the terminating NUL.  Allocation failures, the attribute cache (a file's
    rules are always the parse of its current text) and locking are not modelled; paths are
    relative to the working directory and already normalised (no "." or ".." components
    for git_fs_path_resolve_relative to remove). *)
From Verif Require Import Base Str WildModel.

(** attr_file.h:26-36, 38-47: git_attr_fnmatch with the flags NEGATIVE, DIRECTORY, FULLPATH,
    HASWILD and ICASE; [fctx] is containing_dir. *)
Record fn : Type := mkfn { fpat : list Z; fneg : bool; fdir : bool; ffull : bool; fwild : bool; ficase : bool; fctx : option (list Z) }.

(** util.h:88-93 git__next_line *)
Fixpoint skip_to_nl (s : list Z) : list Z := match s with [] => [] | x :: r => if x =? 10 then s else skip_to_nl r end.
Fixpoint skip_nls (s : list Z) : list Z := match s with [] => [] | x :: r => if (x =? 10) || (x =? 13) then skip_nls r else s end.
Definition next_line (s : list Z) : list Z := skip_nls (skip_to_nl s).

(** util.h:248-251 git__iswildcard *)
Definition iswild (c : Z) : bool := (c =? 42) || (c =? 63) || (c =? 91).

(** attr_file.c:760-788: the scan for the end of the pattern, with ALLOWSPACE.  Result:
    scanned bytes, slash count, FULLPATH, HASWILD.  The pattern++ for a leading slash
    (line 775-776) is applied by the caller. *)
Fixpoint scan_pat (escaped : bool) (s : list Z) : nat * Z * bool * bool :=
  match s with
  | [] => (0%nat, 0, false, false)
  | c :: r =>
      let next (e : bool) (slash wild : bool) :=
        let '(n, k, f, w) := scan_pat e r in (S n, k + (if slash then 1 else 0), slash || f, wild || w) in
      if (c =? 92) && negb escaped then next true false false
      else if isspace c && negb escaped then
        if negb (c =? 32) && negb (c =? 9) && negb (c =? 13) then (0%nat, 0, false, false) else next false false false
      else if c =? 47 then next false true false
      else if iswild c && negb escaped then next false false true
      else next false false false
  end.

(** attr_file.c:661-682 trailing_space_length, on the reversed pattern *)
Fixpoint nback (r : list Z) : nat := match r with c :: r' => if c =? 92 then S (nback r') else 0%nat | [] => 0%nat end.
Fixpoint drop_spaces (r : list Z) : list Z :=
  match r with
  | [] => []
  | c :: r' => if negb (c =? 32) && negb (c =? 9) then r else if Nat.odd (nback r') then r else drop_spaces r'
  end.
Definition trim_spaces (p : list Z) : list Z := rev (drop_spaces (rev p)).

(** attr_file.c:684-710 unescape_spaces *)
Fixpoint unescape (escaped : bool) (s : list Z) : list Z :=
  match s with
  | [] => []
  | c :: r => if negb escaped && (c =? 92) then unescape true r
              else (if escaped && negb (isspace c) then [92] else []) ++ c :: unescape false r
  end.

(** strrchr(context, '/') + 1 *)
Fixpoint upto_last_slash (s : list Z) : list Z :=
  match s with [] => [] | c :: r => match upto_last_slash r with [] => if c =? 47 then [c] else [] | u => c :: u end end.

Inductive pres : Type := PFound (m : fn) (rest : list Z) | PNone (rest : list Z).

(** attr_file.c:837-851 parse_optimized_patterns *)
Definition optimized (base : list Z) : bool :=
  (hd 0 (tl base) =? 0) && ((hd 0 base =? 42) || (hd 0 base =? 46)).

(** attr_file.c:790-834, the part after the scan; [p] is the pattern from [pattern] to
    [scan], [rest] the text at [scan] *)
Definition finish (icase neg : bool) (ctx stale : option (list Z)) (k : Z) (full wild : bool) (p rest : list Z) : pres :=
  match p with
  | [] => PNone rest
  | _ =>
      let p1 := if last p 0 =? 13 then removelast p else p in
      let p2 := trim_spaces p1 in
      match p2 with
      | [] => PNone rest
      | _ =>
          let dir := last p2 0 =? 47 in
          let p3 := if dir then removelast p2 else p2 in
          let full' := if dir && (k - 1 <=? 0) then false else full in
          let cdir := match ctx with
                      | Some x => match upto_last_slash x with [] => stale | u => Some u end
                      | None => stale
                      end in
          PFound (mkfn (unescape false p3) neg dir full' wild icase cdir) rest
      end
  end.

(** attr_file.c:717-835 git_attr_fnmatch__parse as parse_ignore_file calls it (ALLOWSPACE and
    ALLOWNEG, not ALLOWMACRO); [stale] is the containing_dir the reused structure holds. *)
Definition fnparse (icase : bool) (ctx stale : option (list Z)) (base : list Z) : pres :=
  if optimized base then PFound (mkfn (firstn 1 base) false false false false icase stale) base
  else
    let c := hd 0 base in
    if (c =? 0) || (c =? 35) || (c =? 10) || ((c =? 13) && (hd 0 (tl base) =? 10)) then PNone (next_line base)
    else
      let neg := c =? 33 in
      let pattern := if neg then tl base else base in
      let '(n, k, full, wild) := scan_pat false pattern in
      let lead := (0 <? n)%nat && (hd 0 pattern =? 47) in
      finish icase neg ctx stale k full wild
        (let p := firstn n pattern in if lead then tl p else p) (skipn n pattern).

(** git__strncasecmp / git__strncmp on equally long texts *)
Definition same_text (icase : bool) (a b : list Z) : bool :=
  leqb (if icase then map tolower a else a) (if icase then map tolower b else b).

(** ignore.c:50-87 does_negate_pattern *)
Definition does_negate_pattern (rule neg : fn) : bool :=
  if fneg rule || negb (fneg neg) then false
  else
    let lr := length (fpat rule) in let ln := length (fpat neg) in
    if (lr =? ln)%nat then same_text (ficase neg) (fpat rule) (fpat neg)
    else
      let '(shorter, longer) := if (lr <? ln)%nat then (fpat rule, fpat neg) else (fpat neg, fpat rule) in
      let d := (length longer - length shorter)%nat in
      if negb (nth (d - 1) longer 0 =? 47) then false
      else if existsb (Z.eqb 47) shorter then false
      else same_text (ficase neg) (skipn d longer) shorter.

Definition opt_dir (o : option (list Z)) : list Z := match o with Some d => d | None => [] end.

(** ignore.c:103-168 does_negate_rule *)
Definition does_negate_rule (rules : list fn) (m : fn) : bool :=
  existsb (fun rule =>
    if negb (fwild rule) then does_negate_pattern rule m
    else match wildmatch (ffull rule) (ficase m) (opt_dir (fctx rule) ++ fpat rule) (opt_dir (fctx m) ++ fpat m) with
         | MATCH => true | _ => false end) rules.

(** ignore.c:170-243 parse_ignore_file, the loop; [rules] is attrs->rules so far *)
Fixpoint parse_loop (fuel : nat) (icase : bool) (ctx stale : option (list Z)) (text : list Z) (rules : list fn) : res (list fn) :=
  match fuel with
  | O => NoFuel
  | S f =>
      match text with
      | [] => Ok rules
      | _ =>
          match fnparse icase ctx stale text with
          | PFound m rest =>
              if fneg m && negb (fwild m) && negb (does_negate_rule rules m)
              then parse_loop f icase ctx (fctx m) (next_line rest) rules
              else parse_loop f icase ctx None (next_line rest) (rules ++ [m])
          | PNone rest => parse_loop f icase ctx stale rest rules
          end
      end
  end.
Definition parse_ignore_file (fuel : nat) (icase : bool) (ctx : option (list Z)) (text : list Z) (rules : list fn) : res (list fn) :=
  parse_loop fuel icase ctx None text rules.

(** attr_file.h git_attr_path: the path, the offset of its last component, is_dir *)
Record apath : Type := mkap { ap : list Z; ab : nat; adir : bool }.
Definition basename (p : apath) : list Z := skipn (ab p) (ap p).

(** attr_file.c:564-612 git_attr_path__init for a relative path; [isdir] is the dir_flag or
    what the file system says when that is UNKNOWN *)
Fixpoint skip_slashes (s : list Z) : list Z := match s with c :: r => if c =? 47 then skip_slashes r else s | [] => [] end.
Definition path_init (s : list Z) (isdir : bool) : apath :=
  let p := skip_slashes (rev (skip_slashes (rev s))) in
  mkap p (length (upto_last_slash p)) isdir.

(** util.c:241-255, 262-265: git__prefixcmp and its icase form, == 0 *)
Definition prefixcmp0 (icase : bool) (s prefix : list Z) : bool :=
  if icase then prefixb (map tolower prefix) (map tolower s) else prefixb prefix s.

(** attr_file.c:477-536 git_attr_fnmatch__match for rules of an ignore file (IGNORE set) *)
Definition fnmatch (m : fn) (p : apath) : bool :=
  let wm (full : bool) (t : list Z) := match wildmatch full (ficase m) (fpat m) t with MATCH => true | _ => false end in
  let ctxlen := match fctx m with Some d => length d | None => 0%nat end in
  if match fctx m with Some d => negb (prefixcmp0 (ficase m) (ap p) d) | None => false end then false
  else
    let relpath := skipn ctxlen (ap p) in
    let filename := if ffull m then relpath else basename p in
    if fdir m && negb (adir p) then
      if (ab p =? ctxlen)%nat then false
      else if same_text (ficase m) (fpat m) relpath then false
      else wm (ffull m) relpath
    else wm (ffull m) filename.

(** ignore.c:446-464 ignore_lookup_in_rules: git_vector_rforeach; [Some b]: found, *ignored = b *)
Definition lookup_in_rules (rules : list fn) (p : apath) : option bool :=
  match find (fun m => negb (fdir m && negb (adir p)) && fnmatch m p) (rev rules) with
  | Some m => Some (negb (fneg m))
  | None => None
  end.

Fixpoint first_found (files : list (list fn)) (p : apath) : option bool :=
  match files with
  | [] => None
  | f :: r => match lookup_in_rules f p with Some b => Some b | None => first_found r p end
  end.

(** ignore.h git_ignores: internal rules, the .gitignore files (entry path, rules), the
    directory, the depth, the global files *)
Record ignores : Type := mkig { ig_internal : list fn; ig_path : list (list Z * list fn); ig_dir : list Z; ig_depth : Z; ig_global : list (list fn) }.

(** ignore.c:466-502 git_ignore__lookup; ign_path in reverse order *)
Definition ignore_lookup (ig : ignores) (p : apath) : option bool :=
  first_found ([ig_internal ig] ++ rev (map snd (ig_path ig)) ++ ig_global ig) p.

Definition gitignore : list Z := bs ".gitignore".

(** ignore.c:184-188: the context of a rule file *)
Definition context_of (entry : list Z) : option (list Z) :=
  let s := bs "/.gitignore" in
  if (length s <=? length entry)%nat && leqb (skipn (length entry - length s) entry) s then Some entry else None.

(** git_str_rfind_next (str.c) on a directory name ending in a slash, then the truncation:
    the name of the parent directory with its slash *)
Definition parent_dir (d : list Z) : list Z := upto_last_slash (removelast d).

(** ignore.c:245-273, 380-387 push_ignore_file: [store] maps an entry path to the text of that file, if there is one *)
Definition push_file (fuel : nat) (icase : bool) (store : list Z -> option (list Z)) (dir : list Z)
  (acc : list (list Z * list fn)) : res (list (list Z * list fn)) :=
  let entry := dir ++ gitignore in
  match store entry with
  | None => Ok acc
  | Some text => do rules <- parse_ignore_file fuel icase (context_of entry) text [] ;; Ok (acc ++ [(entry, rules)])
  end.

(** fs_path.c:523-585 git_fs_path_walk_up with push_one_ignore: from [dir] (relative to the
    working directory, with its slash) up to the working directory itself *)
Fixpoint walk_up (steps : nat) (fuel : nat) (icase : bool) (store : list Z -> option (list Z)) (dir : list Z)
  (depth : Z) (acc : list (list Z * list fn)) : res (list (list Z * list fn) * Z) :=
  match steps with
  | O => NoFuel
  | S k =>
      do acc' <- push_file fuel icase store dir acc ;;
      match dir with
      | [] => Ok (acc', depth + 1)
      | _ => walk_up k fuel icase store (parent_dir dir) (depth + 1) acc'
      end
  end.

(** ignore.c:20 GIT_IGNORE_DEFAULT_RULES *)
Definition default_rules : list Z := [46; 10; 46; 46; 10] ++ bs ".git" ++ [10].

(** ignore.c:275-290, 504-516: the internal rules: the defaults and then those added by
    git_ignore_add_rule, each call parsing one text *)
Fixpoint add_rules (fuel : nat) (icase : bool) (texts : list (list Z)) (rules : list fn) : res (list fn) :=
  match texts with
  | [] => Ok rules
  | t :: r => do rules' <- parse_ignore_file fuel icase None t rules ;; add_rules fuel icase r rules'
  end.

(** ignore.c:292-376 git_ignore__for_path; [globals]: info/exclude and core.excludesfile,
    those that exist *)
Definition for_path (fuel : nat) (icase : bool) (added : list (list Z)) (store : list Z -> option (list Z)) (globals : list (list Z)) (path : list Z) : res ignores :=
  do internal <- add_rules fuel icase (default_rules :: added) [] ;;
  let dir := upto_last_slash path in
  do w <- walk_up (S (length dir)) fuel icase store dir 0 [] ;;
  let '(files, depth) := w in
  do gl <- (fix go (l : list (list Z)) : res (list (list fn)) :=
     match l with
     | [] => Ok []
     | t :: r => do x <- parse_ignore_file fuel icase None t [] ;; do y <- go r ;; Ok (x :: y)
     end) globals ;;
  Ok (mkig internal files dir depth gl).

(** ignore.c:389-427 git_ignore__pop_dir *)
Definition pop_dir (ig : ignores) : ignores :=
  let files :=
    match rev (ig_path ig) with
    | (entry, _) :: r =>
        let d := upto_last_slash entry in
        if (0 <? length d)%nat && leqb (ig_dir ig) d then rev r else ig_path ig
    | [] => ig_path ig
    end in
  let depth := ig_depth ig - 1 in
  mkig (ig_internal ig) files (if 0 <? depth then parent_dir (ig_dir ig) else ig_dir ig) depth (ig_global ig).

(** ignore.c:578-586: the walk of path.basename back to the start of the parent's name *)
Fixpoint back_to_slash (k : nat) (path : list Z) : nat :=
  match k with O => O | S k' => if nth k path 0 =? 47 then S k else back_to_slash k' path end.
Definition move_up (p : apath) : apath :=
  let path := firstn (ab p - 1) (ap p) in
  mkap path (back_to_slash (ab p) path) true.

(** ignore.c:557-594: the loop of git_ignore_path_is_ignored; files in the vector's order *)
Fixpoint ignored_loop (steps : nat) (ig : ignores) (p : apath) : res bool :=
  match steps with
  | O => NoFuel
  | S k =>
      match first_found ([ig_internal ig] ++ map snd (ig_path ig) ++ ig_global ig) p with
      | Some b => Ok b
      | None => if (ab p =? 0)%nat then Ok false else ignored_loop k (pop_dir ig) (move_up p)
      end
  end.

(** ignore.c:533-600 git_ignore_path_is_ignored *)
Definition path_is_ignored (fuel : nat) (icase : bool) (added : list (list Z)) (store : list Z -> option (list Z)) (globals : list (list Z)) (pathname : list Z) (isdir : bool) : res bool :=
  let p := path_init pathname (if last pathname 0 =? 47 then true else isdir) in
  do ig <- for_path fuel icase added store globals (ap p) ;;
  ignored_loop (S (length (ap p))) ig p.
