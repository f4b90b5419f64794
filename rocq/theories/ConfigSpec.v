(** What the configuration properties claim. *)
From Verif Require Import Base Str WildModel ConfigModel.

(** A value libgit2 puts between quotes: empty, with a space at an end, or with
    a comment character. *)
Definition quoted_value (v : list Z) : Prop :=
  v = [] \/ hd 0 v = 32 \/ last v 0 = 32 \/ In 59 v \/ In 35 v.

(** White space that is neither escaped nor a reason to quote: \v, \f, \r. *)
Definition odd_space (c : Z) : Prop := c = 11 \/ c = 12 \/ c = 13.

Definition storable (v : list Z) : Prop :=
  cstr v /\ (quoted_value v \/ (~ odd_space (hd 0 v) /\ ~ odd_space (last v 0))).

(** A value that needs no escape. *)
Definition plain (v : list Z) : Prop := forall c, In c v -> ~ In c [10; 9; 8; 34; 92].

(** A variable name. *)
Definition varname (n : list Z) : Prop := n <> [] /\ Forall (fun c => keychar c = true) n.

(** The file is accepted, has no variable (nor second header) on the line of a section
    header, and its last value is not waiting for a continuation line. *)
Definition tidy_event (e : event) : Prop :=
  match e with
  | ESection same _ _ => same = false
  | EComment _ _ => True
  | EVar same _ _ _ eof _ => same = false /\ eof = false
  end.
Definition tidy (data : list Z) : Prop :=
  exists evs e, config_parse data = Ok (evs, e) /\ Forall tidy_event evs.

(** Setting a value: the values of [key] and the entries of all other keys. *)
Definition others (key : list Z) (es : list entry) : list entry :=
  filter (fun e => negb (leqb (fst e) key)) es.

(** A key that can be written as a section header: no tab or backspace in its
    subsection. *)
Definition writable_key (name : list Z) : Prop :=
  cstr name /\ ~ In 9 name /\ ~ In 8 name.

(** What the text of a value means in git's configuration format: quotes are
    dropped, \n, \t, \b, a quote and a backslash are written with a backslash,
    every other character stands for itself. *)
Inductive denotes : list Z -> list Z -> Prop :=
| D_end : denotes [] []
| D_quote s v : denotes s v -> denotes (ch """" :: s) v
| D_char c s v : c <> ch """" -> c <> ch "\" -> denotes s v -> denotes (c :: s) (c :: v)
| D_newline s v : denotes s v -> denotes (ch "\" :: ch "n" :: s) (10 :: v)
| D_tab s v : denotes s v -> denotes (ch "\" :: ch "t" :: s) (9 :: v)
| D_bs s v : denotes s v -> denotes (ch "\" :: ch "b" :: s) (8 :: v)
| D_dquote s v : denotes s v -> denotes (ch "\" :: ch """" :: s) (ch """" :: v)
| D_backslash s v : denotes s v -> denotes (ch "\" :: ch "\" :: s) (ch "\" :: v).
