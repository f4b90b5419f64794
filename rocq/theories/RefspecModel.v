(** Model of src/libgit2/refspec.c.  Strings are byte lists without NUL; allocation
    succeeds.  git_refspec__dwim_one is not modelled here. *)
From Verif Require Import Base Str WildModel RefnameModel.

(** refspec.h:16-25 struct git_refspec *)
Record refspec : Type := mkrs {
  rs_string : list Z; rs_src : list Z; rs_dst : option (list Z);
  rs_force : bool; rs_push : bool; rs_pattern : bool; rs_matching : bool }.

(** strrchr / strchr: the parts around the last, resp. first, occurrence *)
Fixpoint rcut (c : Z) (s : list Z) : option (list Z * list Z) :=
  match s with
  | [] => None
  | x :: r => match rcut c r with
              | Some (a, b) => Some (x :: a, b)
              | None => if x =? c then Some ([], r) else None
              end
  end.
Fixpoint lcut (c : Z) (s : list Z) : option (list Z * list Z) :=
  match s with
  | [] => None
  | x :: r => if x =? c then Some ([], r) else match lcut c r with Some (a, b) => Some (x :: a, b) | None => None end
  end.
Definition hasc (c : Z) (s : list Z) : bool := existsb (Z.eqb c) s.

(** One "is it a valid looking ref" step, refspec.c:90-93 and alike *)
Definition check_name (n : list Z) (fl : rflags) (k : res refspec) : res refspec :=
  match name_is_valid n fl with
  | Ok true => k
  | Ok false => Err EINVALIDSPEC
  | Err _ => Err (-1)
  | UB => UB
  | NoFuel => NoFuel
  end.

(** refspec.c:16-178 git_refspec__parse *)
Definition refspec_parse (input : list Z) (is_fetch : bool) : res refspec :=
  let force := hd 0 input =? 43 in                                  (* 32-36 *)
  let lhs := if force then tl input else input in
  let is_neg := hd 0 lhs =? 94 in                                   (* 37-39 *)
  let cutp := rcut 58 lhs in                                        (* 41 *)
  let matching := negb is_fetch && leqb lhs [58] in                 (* 47 *)
  if matching then
    Ok (mkrs input [] (Some []) force (negb is_fetch) false true)
  else
    let has_rhs := match cutp with Some _ => true | None => false end in
    let rhs := match cutp with Some (_, r) => r | None => [] end in
    let dst := match cutp with
               | Some (_, r) => if negb (length r =? 0)%nat || negb is_fetch then Some r else None   (* 58-64 *)
               | None => None end in
    let rglob := hasc 42 rhs in
    let src := match cutp with Some (l, _) => l | None => lhs end in  (* 66 *)
    let lglob := hasc 42 src in
    if lglob && ((has_rhs && negb rglob) || (has_rhs && is_neg) || (negb has_rhs && is_fetch && negb is_neg)) then Err EINVALIDSPEC
    else if negb lglob && has_rhs && rglob then Err EINVALIDSPEC
    else
      let is_glob := lglob in                                       (* 77-81; rglob without rhs is false *)
      let fl := mkf true is_glob true false in
      let done (d : option (list Z)) := Ok (mkrs input src d force (negb is_fetch) is_glob false) in
      if is_fetch then
        let k := match dst with
                 | None => done None
                 | Some [] => done dst
                 | Some d => check_name d fl (done dst) end in      (* 107-114 *)
        match src with [] => k | _ => check_name src fl k end       (* 94-99 *)
      else
        let k := match dst with
                 | None => check_name src fl (done (Some src))      (* 143-147, 159-162 *)
                 | Some [] => Err EINVALIDSPEC
                 | Some d => check_name d fl (done dst) end in
        match src with [] => k | _ => if is_glob then check_name src fl k else k end.

(** refspec.c:264-270, 278-284: wildmatch with no flags *)
Definition src_matches (s : refspec) (name : list Z) : bool :=
  match wildmatch false false (rs_src s) name with MATCH => true | _ => false end.
Definition dst_matches (s : refspec) (name : list Z) : bool :=
  match rs_dst s with
  | None => false
  | Some d => match wildmatch false false d name with MATCH => true | _ => false end
  end.

(** refspec.c:286-320 refspec_transform; [to = None] is a NULL pointer handed to strchr.
    Pointers past the end of [name] and wrapped lengths are [UB]. *)
Definition refspec_tr (from : list Z) (to : option (list Z)) (name : list Z) : res (list Z) :=
  match to with
  | None => UB
  | Some to =>
      match lcut 42 from, lcut 42 to with
      | Some (fa, fb), Some (ta, tb) =>
          if (length name <? length fa)%nat then UB
          else
            let rest := skipn (length fa) name in
            if (length rest <? length fb)%nat then UB
            else Ok (ta ++ firstn (length rest - length fb) rest ++ tb)
      | _, _ => Err (-1)
      end
  end.

(** refspec.c:327-342 git_refspec__transform *)
Definition transform (s : refspec) (name : list Z) : res (list Z) :=
  if negb (src_matches s name) then Err (-1)
  else if negb (rs_pattern s) then Ok (match rs_dst s with Some d => d | None => [] end)
  else refspec_tr (rs_src s) (rs_dst s) name.
(** refspec.c:349-364 git_refspec__rtransform *)
Definition rtransform (s : refspec) (name : list Z) : res (list Z) :=
  if negb (dst_matches s name) then Err (-1)
  else if negb (rs_pattern s) then Ok (rs_src s)
  else match rs_dst s with Some d => refspec_tr d (Some (rs_src s)) name | None => UB end.

(** refspec.c:366-376 git_refspec__serialize *)
Definition serialize (s : refspec) : list Z :=
  (if rs_force s then [43] else []) ++ rs_src s ++ 58 :: match rs_dst s with Some d => d | None => [] end.
