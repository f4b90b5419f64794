(** Model of the line-ending filter: src/libgit2/crlf.c and the conversions of
    src/util/str.c.

    Simplified: text statistics are unbounded counters (unsigned int in the
    code: files of 4 GiB and more are outside the model); failing allocations
    are not modelled; the index lookup of has_cr_in_index is a parameter. *)
From Verif Require Import Base Str.

(** memchr: index of the first [c]. *)
Fixpoint memchr (c : Z) (s : list Z) : option nat :=
  match s with
  | [] => None
  | x :: r => if x =? c then Some O else option_map S (memchr c r)
  end.

Definition starts (c : Z) (s : list Z) : bool := match s with x :: _ => x =? c | [] => false end.

(** git_str_crlf_to_lf, str.c:1119-1164: the loop; [scan] is the unread input. *)
Fixpoint to_lf_loop (fuel : nat) (scan out : list Z) : res (list Z) :=
  match fuel with
  | O => NoFuel
  | S f =>
      match memchr 13 scan with
      | None => Ok (out ++ scan)
      | Some n =>
          let out := out ++ firstn n scan in
          let after := skipn (S n) scan in
          let keep := if starts 10 after then [] else [13] in
          to_lf_loop f after (out ++ keep)
      end
  end.
Definition crlf_to_lf (src : list Z) : res (list Z) := to_lf_loop (S (length src)) src [].

(** git_str_lf_to_crlf, str.c:1166-1208. *)
Definition cut_cr (chunk : list Z) : list Z :=
  if starts 13 (rev chunk) then rev (tl (rev chunk)) else chunk.
Fixpoint to_crlf_loop (fuel : nat) (scan out : list Z) : res (list Z) :=
  match fuel with
  | O => NoFuel
  | S f =>
      match memchr 10 scan with
      | None => Ok (out ++ scan)
      | Some n => to_crlf_loop f (skipn (S n) scan) (out ++ cut_cr (firstn n scan) ++ [13; 10])
      end
  end.
Definition lf_to_crlf (src : list Z) : res (list Z) := to_crlf_loop (S (length src)) src [].

(** git_str_text_stats, str.h:27-31, and git_str_gather_text_stats,
    str.c:1324-1372 with skip_bom = false (the BOM field is not used here). *)
Record stats := mkst { st_nul : Z; st_cr : Z; st_lf : Z; st_crlf : Z; st_printable : Z; st_nonprintable : Z }.
Fixpoint count (s : list Z) (a : stats) : stats :=
  match s with
  | [] => a
  | c :: r =>
      let '(mkst nul cr lf crlf p np) := a in
      count r
        (if (31 <? c) && negb (c =? 127) then mkst nul cr lf crlf (p + 1) np
         else if c =? 0 then mkst (nul + 1) cr lf crlf p (np + 1)
         else if c =? 10 then mkst nul cr (lf + 1) crlf p np
         else if c =? 13 then mkst nul (cr + 1) lf (if starts 10 r then crlf + 1 else crlf) p np
         else if (c =? 9) || (c =? 12) || (c =? 11) || (c =? 8) || (c =? 27) then mkst nul cr lf crlf (p + 1) np
         else mkst nul cr lf crlf p (np + 1))
  end.
Definition without_eof (s : list Z) : list Z :=
  if starts 26 (rev s) then rev (tl (rev s)) else s.
Definition gather (s : list Z) : stats := count (without_eof s) (mkst 0 0 0 0 0 0).
Definition is_binary (a : stats) : bool :=
  negb (st_cr a =? st_crlf a) || (0 <? st_nul a) || (Z.shiftr (st_printable a) 7 <? st_nonprintable a).

(** git_crlf_t, crlf.c:21-30; core.autocrlf, core.safecrlf and core.eol,
    repository.h:72-93. *)
Inductive crlf_t := UNDEFINED | BINARY | TEXT | TEXT_INPUT | TEXT_CRLF | AUTO | AUTO_INPUT | AUTO_CRLF.
Inductive autocrlf := ACFalse | ACTrue | ACInput.
Inductive safecrlf := SCFalse | SCFail | SCWarn.
Inductive eol := EUnset | ECrlf | ELf.
Inductive attrval := ATrue | AFalse | AUnspec | AStr (s : list Z).
Record attrs := mkat { ca_action : crlf_t; ca_auto : autocrlf; ca_safe : safecrlf; ca_eol : eol }.

(** check_crlf, crlf.c:45-59; check_eol, 61-71. *)
Definition check_crlf (v : attrval) : crlf_t :=
  match v with
  | ATrue => TEXT
  | AFalse => BINARY
  | AUnspec => UNDEFINED
  | AStr s => if leqb s (bs "input") then TEXT_INPUT else if leqb s (bs "auto") then AUTO else UNDEFINED
  end.
Definition check_eol (v : attrval) : eol :=
  match v with
  | AStr s => if leqb s (bs "lf") then ELf else if leqb s (bs "crlf") then ECrlf else EUnset
  | _ => EUnset
  end.

(** text_eol_is_crlf, crlf.c:116-129; [native_crlf]: GIT_EOL_NATIVE. *)
Definition text_eol_is_crlf (native_crlf : bool) (auto : autocrlf) (e : eol) : bool :=
  match auto with
  | ACTrue => true
  | ACInput => false
  | ACFalse => match e with ECrlf => true | EUnset => native_crlf | ELf => false end
  end.

(** output_eol, crlf.c:131-153. *)
Definition output_eol (native_crlf : bool) (ca : attrs) : eol :=
  match ca_action ca with
  | BINARY => EUnset
  | TEXT_CRLF => ECrlf
  | TEXT_INPUT => ELf
  | UNDEFINED | AUTO_CRLF => ECrlf
  | AUTO_INPUT => ELf
  | TEXT | AUTO => if text_eol_is_crlf native_crlf (ca_auto ca) (ca_eol ca) then ECrlf else ELf
  end.

Definition is_auto (a : crlf_t) : bool := match a with AUTO | AUTO_INPUT | AUTO_CRLF => true | _ => false end.

(** Result of a filter: the input passed through, or a new buffer, or an error. *)
Inductive applied := Passthrough | Replaced (s : list Z) | Failed.
Definition result (from : list Z) (a : applied) : option (list Z) :=
  match a with Passthrough => Some from | Replaced s => Some s | Failed => None end.

(** check_safecrlf, crlf.c:155-202: true = refuse. *)
Definition safecrlf_refuses (native_crlf : bool) (ca : attrs) (st : stats) : bool :=
  match ca_safe ca with
  | SCFail =>
      match output_eol native_crlf ca with
      | ELf => negb (st_crlf st =? 0)
      | ECrlf => negb (st_crlf st =? st_lf st)
      | EUnset => false
      end
  | _ => false
  end.
Definition of_res (r : res (list Z)) : applied := match r with Ok s => Replaced s | _ => Failed end.

(** crlf_apply_to_odb, crlf.c:204-249; [cr_in_index]: has_cr_in_index. *)
Definition to_odb (native_crlf cr_in_index : bool) (ca : attrs) (from : list Z) : applied :=
  match ca_action ca, from with
  | BINARY, _ => Passthrough
  | _, [] => Passthrough
  | act, _ =>
      let st := gather from in
      if is_auto act && (is_binary st || cr_in_index) then Passthrough
      else if safecrlf_refuses native_crlf ca st then Failed
      else if st_crlf st =? 0 then Passthrough
      else of_res (crlf_to_lf from)
  end.

(** crlf_apply_to_workdir, crlf.c:251-283. *)
Definition to_workdir (native_crlf : bool) (ca : attrs) (from : list Z) : applied :=
  match from with
  | [] => Passthrough
  | _ =>
      match output_eol native_crlf ca with
      | ECrlf =>
          let st := gather from in
          if (st_lf st =? 0) || (st_lf st =? st_crlf st) then Passthrough
          else if is_auto (ca_action ca) && ((0 <? st_cr st) || is_binary st) then Passthrough
          else of_res (lf_to_crlf from)
      | _ => Passthrough
      end
  end.

(** convert_attrs, crlf.c:285-344: from the attributes crlf, eol, text and the
    configuration; [allow_unsafe]: GIT_FILTER_ALLOW_UNSAFE. *)
Definition convert_attrs (native_crlf allow_unsafe : bool) (auto : autocrlf) (safe : safecrlf) (ceol : eol)
    (values : option (attrval * attrval * attrval)) : attrs :=
  let safe := match allow_unsafe, safe with true, SCFail => SCWarn | _, _ => safe end in
  let act :=
    match values with
    | None => UNDEFINED
    | Some (acrlf, aeol, atext) =>
        let a := check_crlf atext in
        let a := match a with UNDEFINED => check_crlf acrlf | _ => a end in
        match a with
        | BINARY => BINARY
        | _ =>
            match a, check_eol aeol with
            | AUTO, ELf => AUTO_INPUT
            | AUTO, ECrlf => AUTO_CRLF
            | _, ELf => TEXT_INPUT
            | _, ECrlf => TEXT_CRLF
            | _, EUnset => a
            end
        end
    end in
  let act := match act with TEXT => if text_eol_is_crlf native_crlf auto ceol then TEXT_CRLF else TEXT_INPUT | _ => act end in
  let act := match act, auto with
             | UNDEFINED, ACFalse => BINARY
             | UNDEFINED, ACTrue => AUTO_CRLF
             | UNDEFINED, ACInput => AUTO_INPUT
             | _, _ => act
             end in
  mkat act auto safe ceol.
