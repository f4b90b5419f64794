(** The matcher on bytes agrees with the matcher on parsed patterns. *)
From Verif Require Import Base Str WildModel WildSpec WildProofs.

Lemma cut_index c s : match cut c s with
  | None => index_of c s = None
  | Some (b, r) => index_of c s = Some (length b) /\ s = b ++ c :: r end.
Proof.
  induction s as [|x s IH]; cbn; [reflexivity|]. destruct (Z.eqb_spec x c) as [->|N]; [auto|].
  destruct (cut c s) as [[b r]|]; [|rewrite IH; reflexivity]. destruct IH as [-> ->]. auto.
Qed.

Lemma class_test_known cf nm t : match class_test cf nm t with Some _ => known nm = true | None => known nm = false end.
Proof.
  unfold known, class_test.
  repeat match goal with |- context [if leqb ?a ?b then _ else _] => destruct (leqb a b) end; reflexivity.
Qed.

Definition prevZ (po : option Z) : Z := match po with None => 0 | Some a => a end.
Definition prev_ok (po : option Z) : Prop := match po with None => True | Some a => a <> 0 end.

Lemma citems_first f po r : hd 0 r <> 93 -> citems f false po r = citems f true po r.
Proof.
  intros H. destruct f as [|f]; [reflexivity|]. destruct r as [|c r]; [reflexivity|]. cbn [hd] in H.
  cbn [citems]. change (ch "]") with 93. destruct (Z.eqb_spec c 93) as [->|N]; [congruence|]. reflexivity.
Qed.
Lemma citems_close f po r : hd 0 r = 93 -> (length r < f)%nat -> citems f false po r = Some ([], tl r).
Proof.
  intros H Hf. destruct f as [|f]; [lia|]. destruct r as [|c r]; [discriminate|]. cbn [hd] in H. subst c. reflexivity.
Qed.

Definition class_ok (r : cres) (cf : bool) (t : Z) (m : bool) (s : option (list item * list Z)) : Prop :=
  match s with
  | None => r = CAbort
  | Some (its, rest) => r = CDone (m || existsb (item_has cf t) its) rest
  end.

Lemma class_ok_cons cf t m i b r s : item_has cf t i = b -> class_ok r cf t (m || b) s ->
  class_ok r cf t m (match s with Some (l, q) => Some (i :: l, q) | None => None end).
Proof.
  intros Hb H. unfold class_ok in *. destruct s as [[l q]|]; [|exact H]. rewrite H. cbn. rewrite Hb, orb_assoc. reflexivity.
Qed.

Lemma cstr_tl (l : list Z) : cstr l -> cstr (tl l).
Proof. intros H. destruct l; [exact H|]. inversion H; assumption. Qed.
Lemma cstr_hd0 c (l : list Z) : cstr (c :: l) -> (c =? 0) = false.
Proof. intros H. inversion H; subst. apply Z.eqb_neq. lia. Qed.

Lemma class_loop_ok cf t : forall f f' p po m, cstr p -> prev_ok po -> (length p < f)%nat -> (length p < f')%nat ->
  class_ok (class_loop f cf t p (prevZ po) m) cf t m (citems f' true po p).
Proof.
  induction f as [|f IH]; intros f' p po m Hp Hpo Hf Hf'; [lia|]. destruct f' as [|f']; [lia|].
  destruct p as [|c r].
  { cbn. reflexivity. }
  assert (Hr : cstr r) by (inversion Hp; assumption).
  cbn [length] in Hf, Hf'.
  assert (Hc0 : c <> 0) by (inversion Hp; subst; lia).
  (* the continuation at the bytes after the current item *)
  assert (Hnext : forall q po' m', cstr q -> prev_ok po' -> (length q < f)%nat -> (length q < f')%nat ->
     class_ok (if hd 0 q =? 93 then CDone m' (tl q) else class_loop f cf t q (prevZ po') m') cf t m' (citems f' false po' q)).
  { intros q po' m' Hq Hpo' H1 H2. destruct (Z.eqb_spec (hd 0 q) 93) as [E|N].
    - rewrite citems_close by assumption. cbn. rewrite orb_false_r. reflexivity.
    - rewrite citems_first by assumption. apply IH; assumption. }
  assert (Hlit : class_ok (if hd 0 r =? 93 then CDone (m || (t =? c)) (tl r) else class_loop f cf t r c (m || (t =? c))) cf t m
     (match citems f' false (Some c) r with Some (l, q) => Some (ILit c :: l, q) | None => None end)).
  { eapply class_ok_cons; [reflexivity|]. cbn [item_has]. apply (Hnext r (Some c)); auto; lia. }
  cbn [class_loop citems]. rewrite andb_false_r. cbn [hd tl].
  change (ch "]") with 93. change (ch "\") with 92. change (ch "-") with 45. change (ch "[") with 91. change (ch ":") with 58.
  rewrite (cstr_hd0 _ _ Hp).
  destruct (Z.eqb_spec c 92) as [->|N92].
  { destruct r as [|d r']; [cbn; reflexivity|]. cbn [hd tl]. rewrite (cstr_hd0 _ _ Hr).
    eapply class_ok_cons; [reflexivity|]. cbn [item_has]. apply (Hnext r' (Some d)); [inversion Hr; assumption| |cbn in Hf; lia|cbn in Hf'; lia].
    cbn. inversion Hr; subst. lia. }
  assert (Hbr : class_ok
     (if (c =? 91) && (hd 0 r =? 58) then
        let s := tl r in
        match index_of 93 s with
        | None => CAbort
        | Some j =>
            if (j =? 0)%nat || negb (nth (j - 1) s 0 =? 58)
            then (if hd 0 r =? 93 then CDone (m || (t =? 91)) (tl r) else class_loop f cf t r 91 (m || (t =? 91)))
            else match class_test cf (firstn (j - 1) s) t with
                 | None => CAbort
                 | Some b => if hd 0 (tl (skipn j s)) =? 93 then CDone (m || b) (tl (tl (skipn j s))) else class_loop f cf t (tl (skipn j s)) 0 (m || b)
                 end
        end
      else (if hd 0 r =? 93 then CDone (m || (t =? c)) (tl r) else class_loop f cf t r c (m || (t =? c)))) cf t m
     (match c =? 91, r with
              | true, d :: r' =>
                  if d =? 58 then
                    match cut 93 r' with
                    | None => None
                    | Some (body, r'') =>
                        match rev body with
                        | e :: nm => if e =? 58 then (if known (rev nm) then match citems f' false None r'' with Some (l, q) => Some (INamed (rev nm) :: l, q) | None => None end else None)
                                     else match citems f' false (Some c) r with Some (l, q) => Some (ILit c :: l, q) | None => None end
                        | [] => match citems f' false (Some c) r with Some (l, q) => Some (ILit c :: l, q) | None => None end
                        end
                    end
                  else match citems f' false (Some c) r with Some (l, q) => Some (ILit c :: l, q) | None => None end
              | _, _ => match citems f' false (Some c) r with Some (l, q) => Some (ILit c :: l, q) | None => None end
              end)).
  { destruct (Z.eqb_spec c 91) as [->|N91]; [|exact Hlit].
    destruct r as [|d r']; [exact Hlit|]. cbn [hd tl andb]. destruct (Z.eqb_spec d 58) as [->|N58]; [|exact Hlit].
    pose proof (cut_index 93 r') as HC. destruct (cut 93 r') as [[body r'']|]; [|cbv zeta; rewrite HC; cbn; reflexivity].
    destruct HC as [-> ->]. cbv zeta. cbn [hd tl] in Hlit.
    destruct (rev body) as [|e nm] eqn:Eb.
    { assert (Hb : body = []) by (rewrite <- (rev_involutive body), Eb; reflexivity). rewrite Hb. cbn [length Nat.eqb orb]. rewrite Hb in Hlit. exact Hlit. }
    assert (Hb : body = rev nm ++ [e]) by (rewrite <- (rev_involutive body), Eb; reflexivity).
    assert (Hlen : length body = S (length nm)) by (rewrite Hb, app_length, rev_length; cbn; lia).
    assert (Hj : (length body =? 0)%nat = false) by (rewrite Hlen; reflexivity). rewrite Hj. cbn [orb].
    assert (Hn : nth (length body - 1) (body ++ 93 :: r'') 0 = e).
    { rewrite Hlen. cbn [Nat.sub]. rewrite Nat.sub_0_r, Hb, <- app_assoc. rewrite app_nth2 by (rewrite rev_length; lia). rewrite rev_length, Nat.sub_diag. reflexivity. }
    rewrite Hn. destruct (Z.eqb_spec e 58) as [->|Ne]; cbn [negb]; [|exact Hlit].
    assert (Hfn : firstn (length body - 1) (body ++ 93 :: r'') = rev nm).
    { rewrite Hlen. cbn [Nat.sub]. rewrite Nat.sub_0_r, Hb, <- app_assoc. rewrite firstn_app, rev_length, Nat.sub_diag. cbn. rewrite app_nil_r. apply firstn_all2. rewrite rev_length. lia. }
    rewrite Hfn. rewrite skipn_app, skipn_all, Nat.sub_diag. cbn [app skipn tl].
    pose proof (class_test_known cf (rev nm) t) as HK. destruct (class_test cf (rev nm) t) as [b|] eqn:Ect; rewrite HK; [|cbn; reflexivity].
    eapply class_ok_cons; [cbn [item_has]; rewrite Ect; reflexivity|].
    cbn [length] in Hf, Hf'. rewrite app_length in Hf, Hf'. cbn [length] in Hf, Hf'. clear Hb Hn Hfn Hlen.
    inversion Hr as [|? ? _ Hr']; subst. apply Forall_app in Hr'. destruct Hr' as [_ Hr']. inversion Hr'; subst.
    apply (Hnext r'' None); [exact H2|exact I|lia|lia]. }
  destruct po as [a|]; cbn [prevZ] in *.
  - destruct (Z.eqb_spec a 0) as [E|_]; [cbn in Hpo; congruence|]. cbn [negb].
    destruct (Z.eqb_spec c 45) as [->|N45]; cbn [andb].
    + destruct r as [|d r']; [exact Hbr|]. cbn [hd tl] in *. rewrite (cstr_hd0 _ _ Hr). cbn [negb andb].
      inversion Hr as [|? ? Hd Hr']; subst. cbn [length] in Hf, Hf'.
      destruct (Z.eqb_spec d 93) as [->|N93]; cbn [negb andb]; [exact Hlit|].
      destruct (Z.eqb_spec d 92) as [->|N92']; cbn [andb].
      * destruct r' as [|e r'']; [cbn; reflexivity|]. cbn [hd tl]. rewrite (cstr_hd0 _ _ Hr').
        inversion Hr'; subst. cbn [length] in Hf, Hf'.
        eapply class_ok_cons; [|apply (Hnext r'' None); [assumption|exact I|lia|lia]].
        cbn [item_has]. rewrite (andb_comm (t <=? e)), (andb_comm (toupper t <=? e)). reflexivity.
      * eapply class_ok_cons; [|apply (Hnext r' None); [assumption|exact I|lia|lia]].
        cbn [item_has]. rewrite (andb_comm (t <=? d)), (andb_comm (toupper t <=? d)). reflexivity.
    + cbv zeta in Hbr. exact Hbr.
  - cbn [negb]. rewrite andb_false_r. cbn [andb]. destruct (c =? 45); exact Hbr.
Qed.

(** Bytes outside the star run. *)
Lemma strip_stars_le p : (length (strip_stars p) <= length p)%nat.
Proof. induction p as [|c p IH]; cbn; [lia|]. destruct (c =? 42); cbn; lia. Qed.
Lemma strip_stars_hd p : hd 0 (strip_stars p) <> 42.
Proof. induction p as [|c p IH]; cbn; [lia|]. destruct (Z.eqb_spec c 42); [exact IH|]. cbn. exact n. Qed.
Lemma strip_stars_cstr p : cstr p -> cstr (strip_stars p).
Proof. induction p as [|c p IH]; cbn; intros H; [constructor|]. destruct (c =? 42); [apply IH; inversion H; assumption|exact H]. Qed.

Lemma citems_len : forall f fi po p its r, citems f fi po p = Some (its, r) -> (length r < length p)%nat.
Proof.
  induction f as [|f IH]; intros fi po p its r H; [discriminate|]. destruct p as [|c p]; [discriminate|].
  cbn [citems] in H.
  assert (Hcons : forall i fi' po' q, (length q <= length p)%nat -> match citems f fi' po' q with Some (l, q0) => Some (i :: l, q0) | None => None end = Some (its, r) -> (length r < S (length p))%nat).
  { intros i fi' po' q Hq HH. destruct (citems f fi' po' q) as [[l q0]|] eqn:E; [|discriminate]. injection HH as _ ->. apply IH in E. lia. }
  cbn [length].
  assert (Hbr : (match c =? ch "[", p with
              | true, d :: r' =>
                  if d =? ch ":" then
                    match cut (ch "]") r' with
                    | None => None
                    | Some (body, r'') =>
                        match rev body with
                        | e :: nm => if e =? ch ":" then (if known (rev nm) then match citems f false None r'' with Some (l, q) => Some (INamed (rev nm) :: l, q) | None => None end else None)
                                     else match citems f false (Some c) p with Some (l, q) => Some (ILit c :: l, q) | None => None end
                        | [] => match citems f false (Some c) p with Some (l, q) => Some (ILit c :: l, q) | None => None end
                        end
                    end
                  else match citems f false (Some c) p with Some (l, q) => Some (ILit c :: l, q) | None => None end
              | _, _ => match citems f false (Some c) p with Some (l, q) => Some (ILit c :: l, q) | None => None end
              end) = Some (its, r) -> (length r < S (length p))%nat).
  { intros HH. destruct (c =? ch "["); [|eapply Hcons; [|exact HH]; lia].
    destruct p as [|d r']; [eapply Hcons; [|exact HH]; lia|]. destruct (d =? ch ":"); [|eapply Hcons; [|exact HH]; lia].
    pose proof (cut_index (ch "]") r') as HC. destruct (cut (ch "]") r') as [[body r'']|]; [|discriminate]. destruct HC as [_ ->].
    destruct (rev body) as [|e nm]; [eapply Hcons; [|exact HH]; lia|]. destruct (e =? ch ":"); [|eapply Hcons; [|exact HH]; lia].
    destruct (known (rev nm)); [|discriminate]. eapply Hcons; [|exact HH]. cbn. rewrite app_length. cbn. lia. }
  destruct ((c =? ch "]") && negb fi); [injection H as _ ->; lia|].
  destruct (c =? ch "\").
  { destruct p as [|d r']; [discriminate|]. eapply Hcons; [|exact H]. cbn. lia. }
  destruct po as [a|]; [|exact (Hbr H)]. destruct (c =? ch "-"); [|exact (Hbr H)]. destruct p as [|d r']; [exact (Hbr H)|].
  destruct (d =? ch "]"); [eapply Hcons; [|exact H]; lia|].
  destruct (d =? ch "\"); [|eapply Hcons; [|exact H]; cbn; lia].
  destruct r' as [|e r'']; [discriminate|]. eapply Hcons; [|exact H]. cbn. lia.
Qed.

Lemma citems_cstr : forall f fi po p its r, cstr p -> citems f fi po p = Some (its, r) -> cstr r.
Proof.
  induction f as [|f IH]; intros fi po p its r Hp H; [discriminate|]. destruct p as [|c p]; [discriminate|].
  cbn [citems] in H. inversion Hp as [|? ? Hc Hp']; subst.
  assert (Hcons : forall i fi' po' q, cstr q -> match citems f fi' po' q with Some (l, q0) => Some (i :: l, q0) | None => None end = Some (its, r) -> cstr r).
  { intros i fi' po' q Hq HH. destruct (citems f fi' po' q) as [[l q0]|] eqn:E; [|discriminate]. injection HH as _ ->. eapply IH; eassumption. }
  destruct ((c =? ch "]") && negb fi); [injection H as _ ->; assumption|].
  destruct (c =? ch "\").
  { destruct p as [|d r']; [discriminate|]. eapply Hcons; [|exact H]. inversion Hp'; assumption. }
  assert (Hlit : match citems f false (Some c) p with Some (l, q) => Some (ILit c :: l, q) | None => None end = Some (its, r) -> cstr r) by (apply Hcons; assumption).
  assert (Hbr : (match c =? ch "[", p with
              | true, d :: r' =>
                  if d =? ch ":" then
                    match cut (ch "]") r' with
                    | None => None
                    | Some (body, r'') =>
                        match rev body with
                        | e :: nm => if e =? ch ":" then (if known (rev nm) then match citems f false None r'' with Some (l, q) => Some (INamed (rev nm) :: l, q) | None => None end else None)
                                     else match citems f false (Some c) p with Some (l, q) => Some (ILit c :: l, q) | None => None end
                        | [] => match citems f false (Some c) p with Some (l, q) => Some (ILit c :: l, q) | None => None end
                        end
                    end
                  else match citems f false (Some c) p with Some (l, q) => Some (ILit c :: l, q) | None => None end
              | _, _ => match citems f false (Some c) p with Some (l, q) => Some (ILit c :: l, q) | None => None end
              end) = Some (its, r) -> cstr r).
  { intros HH. destruct (c =? ch "["); [|exact (Hlit HH)].
    destruct p as [|d r']; [exact (Hlit HH)|]. destruct (d =? ch ":"); [|exact (Hlit HH)].
    pose proof (cut_index (ch "]") r') as HC. destruct (cut (ch "]") r') as [[body r'']|]; [|discriminate]. destruct HC as [_ HC].
    destruct (rev body) as [|e nm]; [exact (Hlit HH)|]. destruct (e =? ch ":"); [|exact (Hlit HH)].
    destruct (known (rev nm)); [|discriminate]. eapply Hcons; [|exact HH]. inversion Hp' as [|? ? _ Hx]; subst. apply Forall_app in Hx. destruct Hx as [_ Hx]. inversion Hx; assumption. }
  destruct po as [a|]; [|exact (Hbr H)]. destruct (c =? ch "-"); [|exact (Hbr H)]. destruct p as [|d r']; [exact (Hbr H)|].
  destruct (d =? ch "]"); [exact (Hlit H)|]. inversion Hp' as [|? ? Hd Hr']; subst.
  destruct (d =? ch "\"); [|eapply Hcons; [|exact H]; assumption].
  destruct r' as [|e r'']; [discriminate|]. eapply Hcons; [|exact H]. inversion Hr'; assumption.
Qed.
