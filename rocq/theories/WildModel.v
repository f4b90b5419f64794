(** Model of src/util/wildmatch.c.  Patterns and texts are byte lists without NUL; reading
    at the end yields the terminating NUL.  The ctype predicates are those of the C locale. *)
From Verif Require Import Base Str.

(** wildmatch.h:15-18; WFUEL is the model's loop bound, never reached. *)
Inductive wres : Type := MATCH | NOMATCH | ABORT_ALL | ABORT_SS | WFUEL.

(** wildmatch.c:83-92: C-locale ctype *)
Definition isupper (c : Z) : bool := (65 <=? c) && (c <=? 90).
Definition islower (c : Z) : bool := (97 <=? c) && (c <=? 122).
Definition isalpha (c : Z) : bool := isupper c || islower c.
Definition isdigit (c : Z) : bool := (48 <=? c) && (c <=? 57).
Definition isalnum (c : Z) : bool := isalpha c || isdigit c.
Definition isxdigit (c : Z) : bool := isdigit c || ((65 <=? c) && (c <=? 70)) || ((97 <=? c) && (c <=? 102)).
Definition isprint (c : Z) : bool := (32 <=? c) && (c <=? 126).
Definition isgraph (c : Z) : bool := (33 <=? c) && (c <=? 126).
Definition isspace (c : Z) : bool := (c =? 32) || ((9 <=? c) && (c <=? 13)).
Definition isblank (c : Z) : bool := (c =? 32) || (c =? 9).
Definition iscntrl (c : Z) : bool := (c <? 32) || (c =? 127).
Definition ispunct (c : Z) : bool := isgraph c && negb (isalnum c).
Definition tolower (c : Z) : Z := if isupper c then c + 32 else c.
Definition toupper (c : Z) : Z := if islower c then c - 32 else c.

(** wildmatch.c:103-106, 154-155, 159-160: fold when WM_CASEFOLD is set *)
Definition fold (cf : bool) (c : Z) : Z := if cf && isupper c then tolower c else c.

(** wildmatch.c:41-56: is_glob_special *)
Definition glob_special (c : Z) : bool := (c =? 42) || (c =? 63) || (c =? 91) || (c =? 92).

(** wildmatch.c:230-270, the [:class:] table; [None]: malformed *)
Definition class_test (cf : bool) (name : list Z) (t : Z) : option bool :=
  if leqb name (bs "alnum") then Some (isalnum t)
  else if leqb name (bs "alpha") then Some (isalpha t)
  else if leqb name (bs "blank") then Some (isblank t)
  else if leqb name (bs "cntrl") then Some (iscntrl t)
  else if leqb name (bs "digit") then Some (isdigit t)
  else if leqb name (bs "graph") then Some (isgraph t)
  else if leqb name (bs "lower") then Some (islower t)
  else if leqb name (bs "print") then Some (isprint t)
  else if leqb name (bs "punct") then Some (ispunct t)
  else if leqb name (bs "space") then Some (isspace t)
  else if leqb name (bs "upper") then Some (isupper t || (cf && islower t))
  else if leqb name (bs "xdigit") then Some (isxdigit t)
  else None.

Fixpoint index_of (c : Z) (s : list Z) : option nat :=
  match s with [] => None | x :: r => if x =? c then Some O else match index_of c r with Some n => Some (S n) | None => None end end.

Inductive cres : Type := CAbort | CDone (matched : bool) (rest : list Z) | CFuel.

(** wildmatch.c:187-274, the do-while of a bracket expression.  [p] points at p_ch;
    [CDone m r]: the loop ended at ']' with [matched] = m and r the pattern after it. *)
Fixpoint class_loop (fuel : nat) (cf : bool) (t : Z) (p : list Z) (prev : Z) (matched : bool) : cres :=
  match fuel with
  | O => CFuel
  | S f =>
      let next (p' : list Z) (prev' : Z) (m' : bool) : cres :=
        let p'' := tl p' in
        if hd 0 p'' =? 93 then CDone m' (tl p'') else class_loop f cf t p'' prev' m' in
      let p_ch := hd 0 p in
      if p_ch =? 0 then CAbort
      else if p_ch =? 92 then
        let p1 := tl p in let c := hd 0 p1 in
        if c =? 0 then CAbort else next p1 c (matched || (t =? c))
      else if (p_ch =? 45) && negb (prev =? 0) && negb (hd 0 (tl p) =? 0) && negb (hd 0 (tl p) =? 93) then
        let p1 := tl p in
        let esc := hd 0 p1 =? 92 in
        let p2 := if esc then tl p1 else p1 in
        let c := hd 0 p2 in
        if esc && (c =? 0) then CAbort
        else
          let m := ((t <=? c) && (prev <=? t))
                   || (cf && islower t && ((toupper t <=? c) && (prev <=? toupper t))) in
          next p2 0 (matched || m)
      else if (p_ch =? 91) && (hd 0 (tl p) =? 58) then
        let s := tl (tl p) in
        match index_of 93 s with
        | None => CAbort
        | Some j =>
            if (j =? 0)%nat || negb (nth (j - 1) s 0 =? 58)
            then next p 91 (matched || (t =? 91))
            else match class_test cf (firstn (j - 1) s) t with
                 | None => CAbort
                 | Some b => next (skipn j s) 0 (matched || b)
                 end
        end
      else next p p_ch (matched || (t =? p_ch))
  end.

(** wildmatch.c:156-164: skip text up to the literal [pc] *)
Fixpoint skip_lit (cf ms : bool) (pc : Z) (text : list Z) : list Z :=
  match text with
  | [] => []
  | x :: r => if negb ms && (x =? 47) then text else if fold cf x =? pc then text else skip_lit cf ms pc r
  end.

(** wildmatch.c:141-176, the loop of a star; [rec] is the recursive call on the pattern
    after the star; [lit] is the folded first pattern byte when it is not special. *)
Fixpoint starloop (fuel : nat) (cf ms : bool) (lit : option Z) (rec : list Z -> wres) (text : list Z) : wres :=
  match fuel with
  | O => WFUEL
  | S f =>
      if hd 0 text =? 0 then ABORT_ALL
      else
        let text' := match lit with Some pc => skip_lit cf ms pc text | None => text end in
        let bad := match lit with Some pc => negb (fold cf (hd 0 text') =? pc) | None => false end in
        if bad then NOMATCH
        else
          let again := starloop f cf ms lit rec (tl text') in
          match rec text' with
          | NOMATCH => if negb ms && (hd 0 text' =? 47) then ABORT_SS else again
          | ABORT_SS => if ms then again else ABORT_SS
          | r => r
          end
  end.

Fixpoint strip_stars (p : list Z) : list Z := match p with c :: r => if c =? 42 then strip_stars r else p | [] => [] end.
Fixpoint strchr (c : Z) (s : list Z) : option (list Z) := match s with [] => None | x :: r => if x =? c then Some s else strchr c r end.

(** wildmatch.c:94-283 dowild.  [pn] = WM_PATHNAME, [cf] = WM_CASEFOLD; [prev] is the
    pattern byte before [p] within this call ([None] at its start), which stands for the
    comparison prev_p < pattern || *prev_p == '/'. *)
Fixpoint dowild (fuel : nat) (pn cf : bool) (prev : option Z) (p text : list Z) : wres :=
  match fuel with
  | O => WFUEL
  | S f =>
      match p with
      | [] => match text with [] => MATCH | _ => NOMATCH end
      | p0 :: p1 =>
          if (hd 0 text =? 0) && negb (p0 =? 42) then ABORT_ALL
          else
            let t := fold cf (hd 0 text) in
            let pc := fold cf p0 in
            if pc =? 92 then
              let c := hd 0 p1 in
              if negb (t =? c) then NOMATCH else dowild f pn cf (Some c) (tl p1) (tl text)
            else if pc =? 63 then
              if pn && (t =? 47) then NOMATCH else dowild f pn cf (Some p0) p1 (tl text)
            else if pc =? 42 then
              let pe := strip_stars p1 in
              let after_ok := match pe with [] => true | c :: r => (c =? 47) || ((c =? 92) && (hd 0 r =? 47)) end in
              let before_ok := match prev with None => true | Some c => c =? 47 end in
              let ss := (hd 0 p1 =? 42) && pn && before_ok && after_ok in
              let ms := negb pn || ss in
              let early := if ss && (hd 0 pe =? 47) then dowild f pn cf None (tl pe) text else NOMATCH in
              match early with
              | MATCH => MATCH
              | WFUEL => WFUEL
              | _ =>
                  match pe with
                  | [] => if negb ms && (match strchr 47 text with Some _ => true | None => false end) then NOMATCH else MATCH
                  | c :: pr =>
                      if negb ms && (c =? 47) then
                        match strchr 47 text with
                        | None => NOMATCH
                        | Some text' => dowild f pn cf (Some c) pr (tl text')
                        end
                      else starloop (S (length text)) cf ms (if glob_special c then None else Some (fold cf c)) (dowild f pn cf None pe) text
                  end
              end
            else if pc =? 91 then
              let c1 := hd 0 p1 in
              let neg := (c1 =? 94) || (c1 =? 33) in
              let p2 := if neg then tl p1 else p1 in
              match class_loop (S (length p2)) cf t p2 0 false with
              | CAbort => ABORT_ALL
              | CFuel => WFUEL
              | CDone m rest =>
                  if Bool.eqb m neg || (pn && (t =? 47)) then NOMATCH
                  else dowild f pn cf (Some 93) rest (tl text)
              end
            else if negb (t =? pc) then NOMATCH
            else dowild f pn cf (Some p0) p1 (tl text)
      end
  end.

(** wildmatch.c:286-289 *)
Definition wildmatch (pn cf : bool) (pattern text : list Z) : wres :=
  dowild (S (length pattern)) pn cf None pattern text.
