(** What a merge of three texts is to do. *)
From Verif Require Import Base CStr Str ApplyModel ApplySpec XdiffModel XdiffSpec XmergeModel.
Local Open Scope Z_scope.

(** The three texts, cut into pieces (of whole lines): both sides have the same; only our side
    changed the base; only theirs did; both did, differently. *)
Inductive piece :=
| Agreed (b l : list (list Z))
| Ours (b o : list (list Z))
| Theirs (b t : list (list Z))
| Clash (b o t : list (list Z)).
Definition base_part (p : piece) : list (list Z) := match p with Agreed b _ | Ours b _ | Theirs b _ | Clash b _ _ => b end.
Definition ours_part (p : piece) : list (list Z) := match p with Agreed _ l => l | Ours _ o => o | Theirs b _ => b | Clash _ o _ => o end.
Definition theirs_part (p : piece) : list (list Z) := match p with Agreed _ l => l | Ours b _ => b | Theirs _ t => t | Clash _ _ t => t end.
Definition is_clash (p : piece) : bool := match p with Clash _ _ _ => true | _ => false end.

(** A change of one side only is one that has, right before it and right after it, a line that all
    three texts have, unless it is where the texts start or end. *)
Definition one_sided (p : piece) : Prop := match p with Ours _ _ | Theirs _ _ => True | _ => False end.
Definition no_lines (ps : list piece) : Prop := flat_map base_part ps = [] /\ flat_map ours_part ps = [] /\ flat_map theirs_part ps = [].
Definition on_its_own (pre post : list piece) : Prop :=
  ((exists pre' k b l, pre = pre' ++ [Agreed (b ++ [k]) (l ++ [k])]) \/ no_lines pre) /\ ((exists k b l post', post = Agreed (k :: b) (k :: l) :: post') \/ no_lines post).
Definition guarded (ps : list piece) : Prop := forall pre p post, ps = pre ++ p :: post -> one_sided p -> on_its_own pre post.

(** Lines that are followed by something: the last one gets a line end if it has none. *)
Definition eol (cr : bool) : list Z := (if cr then [13] else []) ++ [10].
Definition finished (ls : list (list Z)) : Prop := ls = [] \/ exists r l, ls = r ++ [l] /\ complete l.
Inductive block (cr : bool) (ls : list (list Z)) : list Z -> Prop :=
| bl_full : finished ls -> block cr ls (concat ls)
| bl_cut : ~ finished ls -> block cr ls (concat ls ++ eol cr).
(** A line of marks, seven if the caller does not say how many. *)
Definition marks (c : Z) (o : mopts) (label : option (list Z)) (cr : bool) : list Z :=
  repeat c (if marker_size o <=? 0 then 7%nat else Z.to_nat (marker_size o)) ++ match label with Some n => [32] ++ n | None => [] end ++ eol cr.
(** How a piece is written. *)
Inductive resolved (o : mopts) (cr : bool) : piece -> list Z -> Prop :=
| rs_agreed b l : resolved o cr (Agreed b l) (concat l)
| rs_ours b l : resolved o cr (Ours b l) (concat l)
| rs_theirs b l : resolved o cr (Theirs b l) (concat l)
| rs_favour_ours b l r : m_favor o = 1 -> resolved o cr (Clash b l r) (concat l)
| rs_favour_theirs b l r : m_favor o = 2 -> resolved o cr (Clash b l r) (concat r)
| rs_union b l r x : m_favor o = 3 -> block cr l x -> resolved o cr (Clash b l r) (x ++ concat r)
| rs_merge b l r x z : m_favor o = 0 -> m_style o = StyleMerge -> block cr l x -> block cr r z ->
    resolved o cr (Clash b l r) (marks 60 o (name1 o) cr ++ x ++ marks 61 o None cr ++ z ++ marks 62 o (name2 o) cr)
| rs_diff3 b l r x y z : m_favor o = 0 -> m_style o <> StyleMerge -> block cr l x -> block cr b y -> block cr r z ->
    resolved o cr (Clash b l r) (marks 60 o (name1 o) cr ++ x ++ marks 124 o (name3 o) cr ++ y ++ marks 61 o None cr ++ z ++ marks 62 o (name2 o) cr).
(** The lines of a merge without conflicts. *)
Definition outcome (p : piece) : list (list Z) := match p with Agreed _ l | Ours _ l | Theirs _ l => l | Clash _ l _ => l end.
(** All of them in order; a carriage return is put before the newlines that are added only if the
    base starts with a line that ends so. *)
Inductive written (o : mopts) (crlf : Prop) : list piece -> list Z -> Prop :=
| w_nil : written o crlf [] []
| w_cons cr p ps x y : (cr = true -> crlf) -> resolved o cr p x -> written o crlf ps y -> written o crlf (p :: ps) (x ++ y).
Definition starts_crlf (s : list Z) : Prop := exists l r, ~ In 10 l /\ s = l ++ [13; 10] ++ r.

(** Where the changes of a diff without context are in the old text: lines from .. from + old_lines - 1, counted from 0. *)
Definition from (h : dhunk) : Z := if old_lines h =? 0 then old_start h else old_start h - 1.
(** Between two changes there is a line that neither changes. *)
Definition apart (h k : dhunk) : Prop := from h + old_lines h < from k \/ from k + old_lines k < from h.
