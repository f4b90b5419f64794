(** The glob language: syntax (a parser from bytes to elements) and meaning. *)
From Verif Require Import Base Str WildModel.

Inductive item : Type := ILit (c : Z) | IRange (a b : Z) | INamed (name : list Z).
Inductive elem : Type :=
| ELit (c : Z)                            (* an ordinary byte *)
| EEsc (c : Z)                            (* backslash and a byte *)
| EAny                                    (* ? *)
| EClass (neg : bool) (its : list item)   (* [...] *)
| EStar (slashes : bool)                  (* any run of bytes, with or without slashes *)
| EDirs                                   (* a double star before a slash: any run, or with that slash nothing at all *)
| EBad.                                   (* malformed bracket: matches nothing *)

Definition known (name : list Z) : bool := match class_test false name 0 with Some _ => true | None => false end.
Fixpoint cut (c : Z) (s : list Z) : option (list Z * list Z) :=
  match s with
  | [] => None
  | x :: r => if x =? c then Some ([], r) else match cut c r with Some (a, b) => Some (x :: a, b) | None => None end
  end.

(** Items of a bracket expression up to its closing bracket; [first]: a bracket here is an
    ordinary byte; [prev]: the byte a range may start from. *)
Fixpoint citems (fuel : nat) (first : bool) (prev : option Z) (p : list Z) : option (list item * list Z) :=
  match fuel with
  | O => None
  | S f =>
      let cons (i : item) (r : option (list item * list Z)) := match r with Some (l, q) => Some (i :: l, q) | None => None end in
      match p with
      | [] => None
      | c :: r =>
          if (c =? ch "]") && negb first then Some ([], r)
          else if c =? ch "\" then
            match r with [] => None | d :: r' => cons (ILit d) (citems f false (Some d) r') end
          else match prev, c =? ch "-", r with
          | Some a, true, d :: r' =>
              if d =? ch "]" then cons (ILit c) (citems f false (Some c) r)
              else if d =? ch "\" then
                match r' with [] => None | e :: r'' => cons (IRange a e) (citems f false None r'') end
              else cons (IRange a d) (citems f false None r')
          | _, _, _ =>
              match c =? ch "[", r with
              | true, d :: r' =>
                  if d =? ch ":" then
                    match cut (ch "]") r' with
                    | None => None
                    | Some (body, r'') =>
                        match rev body with
                        | e :: nm => if e =? ch ":" then (if known (rev nm) then cons (INamed (rev nm)) (citems f false None r'') else None)
                                     else cons (ILit c) (citems f false (Some c) r)
                        | [] => cons (ILit c) (citems f false (Some c) r)
                        end
                    end
                  else cons (ILit c) (citems f false (Some c) r)
              | _, _ => cons (ILit c) (citems f false (Some c) r)
              end
          end
      end
  end.

Definition next_dir (pe : list Z) : bool :=    (* end, slash or escaped slash *)
  match pe with [] => true | [c] => c =? ch "/" | c :: d :: _ => (c =? ch "/") || ((c =? ch "\") && (d =? ch "/")) end.

(** [bol]: at the start of the pattern or just after a slash. *)
Fixpoint parse (fuel : nat) (pn bol : bool) (p : list Z) : list elem :=
  match fuel with
  | O => []
  | S f =>
      match p with
      | [] => []
      | c :: r =>
          if c =? ch "*" then
            let pe := strip_stars r in
            (if negb pn then EStar true
             else if (hd 0 r =? ch "*") && bol && next_dir pe then (if hd 0 pe =? ch "/" then EDirs else EStar true)
             else EStar false) :: parse f pn false pe
          else if c =? ch "\" then
            match r with [] => [EEsc 0] | d :: r' => EEsc d :: parse f pn (d =? ch "/") r' end
          else if c =? ch "?" then EAny :: parse f pn false r
          else if c =? ch "[" then
            let neg := (hd 0 r =? ch "^") || (hd 0 r =? ch "!") in
            let r1 := if neg then tl r else r in
            match citems (S (length r1)) true None r1 with
            | None => [EBad]
            | Some (its, r2) => EClass neg its :: parse f pn false r2
            end
          else ELit c :: parse f pn (c =? ch "/") r
      end
  end.
Definition glob (pn : bool) (p : list Z) : list elem := parse (S (length p)) pn true p.

Definition item_has (cf : bool) (t : Z) (i : item) : bool :=
  match i with
  | ILit c => t =? c
  | IRange a b => ((a <=? t) && (t <=? b)) || (cf && islower t && ((a <=? toupper t) && (toupper t <=? b)))
  | INamed nm => match class_test cf nm t with Some b => b | None => false end
  end.

(** Meaning: which texts an element list matches.  [cf] folds the text's upper-case letters
    (and those of ordinary pattern bytes) to lower case; [pn] keeps '?' and brackets from
    matching a slash. *)
Fixpoint lang (pn cf : bool) (es : list elem) (t : list Z) : Prop :=
  match es with
  | [] => t = []
  | e :: es' =>
      match e with
      | ELit c => exists x t', t = x :: t' /\ fold cf x = fold cf c /\ lang pn cf es' t'
      | EEsc c => exists x t', t = x :: t' /\ fold cf x = c /\ lang pn cf es' t'
      | EAny => exists x t', t = x :: t' /\ ~ (pn = true /\ x = ch "/") /\ lang pn cf es' t'
      | EClass neg its => exists x t', t = x :: t' /\ existsb (item_has cf (fold cf x)) its = negb neg /\ ~ (pn = true /\ x = ch "/") /\ lang pn cf es' t'
      | EStar s => exists u v, t = u ++ v /\ (s = true \/ ~ In (ch "/") u) /\ lang pn cf es' v
      | EDirs => (exists u v, t = u ++ v /\ lang pn cf es' v) \/
                 match es' with ELit c :: es'' => lang pn cf es'' t | _ => False end
      | EBad => False
      end
  end.
