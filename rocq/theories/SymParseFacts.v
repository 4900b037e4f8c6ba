(** Expressions, their renderings as tokens, and what the parser model does
    with them. *)
From Coq Require Import List Bool ZArith NArith String Ascii Lia Reals.
From Verif Require Import Scalar SymMap SymPoly SymPolyFacts SymGA SymParse SymLexFacts.
Import ListNotations.
Local Open Scope nat_scope.

(** the binary operators: characters and precedence, loosest first *)
Inductive bop := OAdd | OSub | OMul | OExt | OReg | ODot.
Definition bop_char (o : bop) : ascii :=
  match o with OAdd => "+" | OSub => "-" | OMul => "*" | OExt => "^" | OReg => "&" | ODot => "|" end%char.
Definition bop_level (o : bop) : nat :=
  match o with OAdd | OSub => 0 | OMul => 1 | OExt => 2 | OReg => 3 | ODot => 4 end.

Section Parse.
Context {C : Type} `{LAWS : CoefLaws C} (a : algebra).

(** expression trees *)
Inductive ex :=
| XNum (v : C) | XId (s : string) | XEl (value : N) (negative : bool)
| XNumEl (v : C) (value : N) (negative : bool) | XIdEl (s : string) (value : N) (negative : bool)
| XNeg (e : ex) | XRev (e : ex) | XPos (e : ex)
| XBin (o : bop) (e f : ex).

(** the multivector with one term *)
Definition single (e : N) (m : mon) (f : C) : smv C := [(e, [(m, f)])].
Definition signed (negative : bool) (f : C) : C := if negative then fmul f (fz (-1)) else f.
Definition bop_sem (o : bop) : smv C -> smv C -> smv C :=
  match o with
  | OAdd => smv_add | OSub => smv_sub
  | OMul => smv_mul a | OExt => smv_ext a | OReg => smv_reg a | ODot => smv_dot a
  end.
(** the value of a tree *)
Fixpoint value (e : ex) : smv C :=
  match e with
  | XNum v => single 0 [] v
  | XId s => single 0 [(s, 1%Z)] (fz 1)
  | XEl b n => single b [] (if n then fz (-1) else fz 1)
  | XNumEl v b n => single b [] (signed n v)
  | XIdEl s b n => single b [(s, 1%Z)] (signed n (fz 1))
  | XNeg e => smv_opp (value e)
  | XRev e => smv_rev (value e)
  | XPos e => value e
  | XBin o e f => bop_sem o (value e) (value f)
  end.

(** [ren k e l]: the tokens l are a way to write e where an operand of
    precedence k is expected: 0 sums, 1 products, 2 exterior products,
    3 regressive products, 4 inner products, 5 factors.  Binary operators group
    to the left; redundant parentheses are allowed anywhere. *)
Inductive ren : nat -> ex -> list (token C) -> Prop :=
| rn_num v : ren 5 (XNum v) [TNum v]
| rn_id s : ren 5 (XId s) [TId s]
| rn_el b n : ren 5 (XEl b n) [TElem b n]
| rn_num_el v b n : ren 5 (XNumEl v b n) [TNum v; TElem b n]
| rn_id_el s b n : ren 5 (XIdEl s b n) [TId s; TElem b n]
| rn_paren e l : ren 0 e l -> ren 5 e (TDelim "(" :: l ++ [TDelim ")"])
| rn_neg e l : ren 5 e l -> ren 5 (XNeg e) (TOp "-" :: l)
| rn_rev e l : ren 5 e l -> ren 5 (XRev e) (TOp "~" :: l)
| rn_pos e l : ren 5 e l -> ren 5 (XPos e) (TOp "+" :: l)
| rn_up k e l : (k < 5)%nat -> ren (S k) e l -> ren k e l
| rn_bin o e f l m : ren (bop_level o) e l -> ren (S (bop_level o)) f m ->
    ren (bop_level o) (XBin o e f) (l ++ TOp (bop_char o) :: m).

(** ** involutions *)
Lemma opp_opp_C (x : C) : fmul (fmul x (fz (-1))) (fz (-1)) = x.
Proof. apply cval_inj. rewrite !cval_mul, cval_fz. ring. Qed.
Lemma opp_one_C : fmul (fz 1 : C) (fz (-1)) = fz (-1).
Proof. apply cval_inj. rewrite cval_mul, !cval_fz. ring. Qed.
Lemma opp_mone_C : fmul (fz (-1) : C) (fz (-1)) = fz 1.
Proof. apply cval_inj. rewrite cval_mul, !cval_fz. ring. Qed.
Lemma poly_opp_opp (p : poly C) : poly_opp (poly_opp p) = p.
Proof.
  unfold poly_opp. rewrite map_map. rewrite <- (map_id p) at 2. apply map_ext. intros [m f]. cbn.
  rewrite opp_opp_C. reflexivity.
Qed.
Lemma smv_opp_opp (m : smv C) : smv_opp (smv_opp m) = m.
Proof.
  unfold smv_opp. rewrite map_map. rewrite <- (map_id m) at 2. apply map_ext. intros [e p]. cbn [fst snd].
  rewrite poly_opp_opp. reflexivity.
Qed.
Lemma smv_rev_rev (m : smv C) : smv_rev (smv_rev m) = m.
Proof.
  unfold smv_rev. rewrite map_map. rewrite <- (map_id m) at 2. apply map_ext. intros [e p]. cbn [fst snd].
  destruct (alg_rev e); rewrite ?poly_opp_opp; reflexivity.
Qed.
Lemma smv_rev_opp (m : smv C) : smv_rev (smv_opp m) = smv_opp (smv_rev m).
Proof.
  unfold smv_rev, smv_opp. rewrite !map_map. apply map_ext. intros [e p]. cbn [fst snd].
  destruct (alg_rev e); reflexivity.
Qed.
Definition app_flags (neg rev : bool) (v : smv C) : smv C :=
  let v := if rev then smv_rev v else v in if neg then smv_opp v else v.
Lemma app_neg neg rev v : app_flags (negb neg) rev v = app_flags neg rev (smv_opp v).
Proof. unfold app_flags; destruct neg, rev; cbn [negb]; rewrite ?smv_rev_opp, ?smv_opp_opp; reflexivity. Qed.
Lemma app_rev neg rev v : app_flags neg (negb rev) v = app_flags neg rev (smv_rev v).
Proof. unfold app_flags; destruct neg, rev; cbn [negb]; rewrite ?smv_rev_rev; reflexivity. Qed.

(** ** the levels *)
Notation presult := (res (smv C * list (token C))).
Definition lvl_down (k : nat) (d n : nat) : list (token C) -> presult :=
  match k with
  | 0 => parse_factor a d n
  | 1 => dot_level a n (parse_factor a d n)
  | 2 => reg_level a n (parse_factor a d n)
  | 3 => ext_level a n (parse_factor a d n)
  | 4 => term_level a n (parse_factor a d n)
  | _ => expr_level a n (parse_factor a d n)
  end.
Definition lv (k d n : nat) := lvl_down (5 - k) d n.
Definition lp (k d n m : nat) (out : smv C) (it : list (token C)) : presult :=
  match k with
  | 0 => sum_loop m (lv 1 d n) out it
  | 1 => left_loop m "*" (smv_mul a) (lv 2 d n) out it
  | 2 => left_loop m "^" (smv_ext a) (lv 3 d n) out it
  | 3 => left_loop m "&" (smv_reg a) (lv 4 d n) out it
  | _ => left_loop m "|" (smv_dot a) (lv 5 d n) out it
  end.
Lemma lv_step k d n it : (k < 5)%nat -> lv k d n it = bind (lv (S k) d n it) (fun y => lp k d n n (fst y) (snd y)).
Proof. intro K. do 5 (destruct k as [|k]; [reflexivity|]). lia. Qed.
Lemma lp_bin o d n m v r :
  lp (bop_level o) d n (S m) v (TOp (bop_char o) :: r) =
  bind (lv (S (bop_level o)) d n r) (fun y => lp (bop_level o) d n m (bop_sem o v (fst y)) (snd y)).
Proof. destruct o; reflexivity. Qed.

(** what may follow an operand of precedence k *)
Definition stops (k : nat) (rest : list (token C)) : Prop :=
  match rest with
  | TEof :: _ => True
  | TDelim _ :: _ => True
  | TOp c :: _ => exists o, c = bop_char o /\ (bop_level o < k)%nat
  | _ => False
  end.
Lemma stops_up k rest : stops k rest -> stops (S k) rest.
Proof.
  destruct rest as [|[| | | | |] rest]; cbn; try tauto. intros [o [E L]]. exists o. split; [assumption|lia].
Qed.
Lemma lp_stop k d n m v rest : (k < 5)%nat -> stops k rest -> lp k d n (S m) v rest = Val (v, rest).
Proof.
  intros K S.
  destruct rest as [|[b ng|x|s|c|c|] rest]; cbn in S; try contradiction;
    destruct k as [|[|[|[|[|k]]]]]; try lia; cbn [lp sum_loop left_loop]; try reflexivity;
    destruct S as [o [-> L]]; destruct o; cbn in L; try lia; reflexivity.
Qed.

(** ** factors *)
Definition factor_flags (pe : list (token C) -> presult) (neg rev : bool) (it : list (token C)) : presult :=
  bind (unary_ops it neg rev) (fun x =>
  let '(negate, reverse, it) := x in
  match it with
  | [] => Undef
  | TId s :: r => scaled_blade (poly_push [] (one_mon s) (fz 1)) negate reverse r
  | TNum v :: r => scaled_blade (poly_push [] [] v) negate reverse r
  | TElem value negative :: r =>
    let negate := if negative then negb negate else negate in
    let p := poly_push [] [] (if negate then fz (-1) else fz 1) in
    let out := smv_push [] value p in
    Val (if reverse then smv_rev out else out, r)
  | TDelim c :: r =>
    if Ascii.eqb c "(" then
      bind (pe r) (fun y =>
      let '(result, it) := y in
      match it with
      | [] => Undef
      | TDelim c' :: r' =>
        if Ascii.eqb c' ")" then
          let v := if reverse then smv_rev result else result in
          Val (if negate then smv_opp v else v, r')
        else Throw
      | _ => Throw
      end)
    else Throw
  | _ => Throw
  end).
Lemma factor_body_flags pe it : factor_body pe it = factor_flags pe false false it.
Proof. reflexivity. Qed.
Lemma parse_factor_S d n it : parse_factor a (S d) n it = factor_flags (lv 0 d n) false false it.
Proof. reflexivity. Qed.

Lemma scaled_value (m : mon) (f : C) (b : N) (n neg rev : bool) :
  (if rev then smv_rev (smv_push [] b (if (if n then negb neg else neg) then poly_opp (poly_push [] m f) else poly_push [] m f))
   else smv_push [] b (if (if n then negb neg else neg) then poly_opp (poly_push [] m f) else poly_push [] m f)) =
  app_flags neg rev (single b m (signed n f)).
Proof.
  unfold app_flags, single, signed. unfold smv_push, poly_push. cbn [find emplace].
  destruct n, neg, rev; cbn [negb smv_rev smv_opp map fst snd poly_opp]; try destruct (alg_rev b);
    cbn [map fst snd]; rewrite ?opp_opp_C; reflexivity.
Qed.
Lemma scaled_value0 (m : mon) (f : C) (neg rev : bool) :
  (if rev then smv_rev (smv_push [] 0%N (if neg then poly_opp (poly_push [] m f) else poly_push [] m f))
   else smv_push [] 0%N (if neg then poly_opp (poly_push [] m f) else poly_push [] m f)) =
  app_flags neg rev (single 0 m f).
Proof. exact (scaled_value m f 0 false neg rev). Qed.
Lemma element_value (b : N) (n neg rev : bool) :
  (if rev then smv_rev (smv_push [] b (poly_push [] [] (if (if n then negb neg else neg) then fz (-1) else fz 1 : C)))
   else smv_push [] b (poly_push [] [] (if (if n then negb neg else neg) then fz (-1) else fz 1 : C))) =
  app_flags neg rev (single b [] (if n then fz (-1) else fz 1)).
Proof.
  unfold app_flags, single. unfold smv_push, poly_push. cbn [find emplace].
  destruct n, neg, rev; cbn [negb smv_rev smv_opp map fst snd poly_opp]; try destruct (alg_rev b);
    cbn [map fst snd]; rewrite ?opp_one_C, ?opp_mone_C, ?opp_one_C; reflexivity.
Qed.

(** ** completeness: every rendering is parsed to the value *)
Lemma ren_nonempty k e l : ren k e l -> (0 < List.length l)%nat.
Proof. induction 1; cbn; rewrite ?app_length; cbn; lia. Qed.
Lemma one_mon_eq s : one_mon s = [(s, 1%Z)]. Proof. reflexivity. Qed.

Lemma ren_parse k e l : ren k e l ->
  (k = 5 -> forall d n neg rev rest, (List.length l <= S d)%nat -> (List.length l <= n)%nat -> stops 5 rest ->
     factor_flags (lv 0 d n) neg rev (l ++ rest) = Val (app_flags neg rev (value e), rest)) /\
  (k < 5 -> forall d n rest, (List.length l <= d)%nat -> (List.length l <= n)%nat -> stops (S k) rest ->
     exists j, (j < List.length l)%nat /\ lv k d n (l ++ rest) = lp k d n (n - j) (value e) rest).
Proof.
  intro R. induction R as [v|s|b n|v b n|s b n|e l R IH|e l R IH|e l R IH|e l R IH|k e l K R IH|o e f l m R1 IH1 R2 IH2];
    (split; [intro K5|intro K5; try lia]).
  - intros d n neg rev rest _ _ S. cbn [app]. unfold factor_flags. cbn [unary_ops bind].
    destruct rest as [|[| | | | |] rest]; cbn in S; try contradiction; cbn [scaled_blade];
      rewrite scaled_value0; reflexivity.
  - intros d n neg rev rest _ _ S. cbn [app]. unfold factor_flags. cbn [unary_ops bind].
    rewrite one_mon_eq.
    destruct rest as [|[| | | | |] rest]; cbn in S; try contradiction; cbn [scaled_blade];
      rewrite scaled_value0; reflexivity.
  - intros d n0 neg rev rest _ _ S. cbn [app]. unfold factor_flags. cbn [unary_ops bind]; cbv zeta.
    rewrite element_value. reflexivity.
  - intros d n0 neg rev rest _ _ S. cbn [app]. unfold factor_flags. cbn [unary_ops bind scaled_blade].
    rewrite scaled_value. reflexivity.
  - intros d n0 neg rev rest _ _ S. cbn [app]. unfold factor_flags. cbn [unary_ops bind scaled_blade].
    rewrite one_mon_eq, scaled_value. reflexivity.
  - intros d n neg rev rest L1 L2 S. cbn [List.length] in L1, L2. rewrite app_length in L1, L2. cbn in L1, L2.
    cbn [app]. unfold factor_flags. cbn [unary_ops bind]. change (Ascii.eqb "(" "(") with true. cbv iota.
    rewrite <- app_assoc. cbn [app].
    destruct (proj2 IH ltac:(lia) d n (TDelim ")" :: rest)) as [j [J E]]; [lia|lia|exact I|].
    rewrite E. replace (n - j)%nat with (Datatypes.S (n - j - 1)) by lia.
    rewrite lp_stop by (lia || exact I). cbn [bind]. change (Ascii.eqb ")" ")") with true. cbv iota. reflexivity.
  - intros d n neg rev rest L1 L2 S. cbn [List.length] in L1, L2. cbn [app value]. rewrite <- app_neg.
    rewrite <- (proj1 IH eq_refl d n (negb neg) rev rest) by (lia || assumption). reflexivity.
  - intros d n neg rev rest L1 L2 S. cbn [List.length] in L1, L2. cbn [app value]. rewrite <- app_rev.
    rewrite <- (proj1 IH eq_refl d n neg (negb rev) rest) by (lia || assumption). reflexivity.
  - intros d n neg rev rest L1 L2 S. cbn [List.length] in L1, L2. cbn [app value].
    rewrite <- (proj1 IH eq_refl d n neg rev rest) by (lia || assumption). reflexivity.
  - lia.
  - intros d n rest L1 L2 S. pose proof (ren_nonempty _ _ _ R) as NE.
    exists 0%nat. split; [assumption|]. rewrite Nat.sub_0_r, lv_step by assumption.
    assert (E : lv (Datatypes.S k) d n (l ++ rest) = Val (value e, rest)); [|rewrite E; reflexivity].
    destruct (Nat.eq_dec k 4) as [->|K4].
    + destruct d as [|d]; [lia|]. change (lv 5 (Datatypes.S d) n (l ++ rest)) with (parse_factor a (Datatypes.S d) n (l ++ rest)).
      rewrite parse_factor_S. rewrite (proj1 IH eq_refl) by (lia || assumption). reflexivity.
    + destruct (proj2 IH ltac:(lia) d n rest) as [j [J E]]; [lia|lia|apply stops_up; assumption|].
      rewrite E. replace (n - j)%nat with (Datatypes.S (n - j - 1)) by lia. apply lp_stop; [lia|assumption].
  - destruct o; discriminate.
  - intros d n rest L1 L2 S. rewrite app_length in *. cbn [List.length] in *. rewrite <- app_assoc. cbn [app].
    destruct (proj2 IH1 ltac:(assumption) d n (TOp (bop_char o) :: m ++ rest)) as [j [J E]]; [lia|lia|exists o; split; [reflexivity|lia]|].
    exists (Datatypes.S j). split; [lia|]. rewrite E.
    replace (n - j)%nat with (Datatypes.S (n - Datatypes.S j)) by lia. rewrite lp_bin.
    pose proof (ren_nonempty _ _ _ R2) as NE.
    assert (EQ : lv (Datatypes.S (bop_level o)) d n (m ++ rest) = Val (value f, rest)); [|rewrite EQ; reflexivity].
    destruct (Nat.eq_dec (bop_level o) 4) as [K4|K4].
    + rewrite K4 in *. destruct d as [|d]; [lia|].
      change (lv 5 (Datatypes.S d) n (m ++ rest)) with (parse_factor a (Datatypes.S d) n (m ++ rest)).
      rewrite parse_factor_S. rewrite (proj1 IH2 eq_refl) by (lia || assumption). reflexivity.
    + destruct (proj2 IH2 ltac:(lia) d n rest) as [j' [J' E']]; [lia|lia|apply stops_up; assumption|].
      rewrite E'. replace (n - j')%nat with (Datatypes.S (n - j' - 1)) by lia. apply lp_stop; [lia|assumption].
Qed.
Lemma parse_ren e l rest d n : ren 0 e l -> stops 0 rest -> (List.length l <= d)%nat -> (List.length l <= n)%nat ->
  parse_expr a d n (l ++ rest) = Val (value e, rest).
Proof.
  intros R S L1 L2. destruct (proj2 (ren_parse 0 e l R) ltac:(lia) d n rest L1 L2 (stops_up _ _ S)) as [j [J E]].
  change (parse_expr a d n (l ++ rest)) with (lv 0 d n (l ++ rest)). rewrite E.
  replace (n - j)%nat with (Datatypes.S (n - j - 1)) by lia. apply lp_stop; [lia|assumption].
Qed.

(** ** soundness: what the parser reads is a rendering of what it returns *)
Lemma flags_sound pe :
  (forall it v rest, pe it = Val (v, rest) -> exists e l, it = l ++ rest /\ ren 0 e l /\ value e = v) ->
  forall it neg rev v rest, factor_flags pe neg rev it = Val (v, rest) ->
  exists e l, it = l ++ rest /\ ren 5 e l /\ app_flags neg rev (value e) = v.
Proof.
  intro PE. induction it as [|t it IH]; intros neg rev v rest E; [discriminate|].
  destruct t as [b n|x|s|c|c|]; unfold factor_flags in E; cbn [unary_ops bind] in E; cbv zeta in E.
  - rewrite element_value in E. inversion E; subst. exists (XEl b n), [TElem b n]. repeat split. constructor.
  - destruct it as [|[b n|y|s|c|c|] it]; cbn [scaled_blade] in E; try discriminate;
      (rewrite scaled_value in E || rewrite scaled_value0 in E); inversion E; subst;
      try (exists (XNumEl x b n), [TNum x; TElem b n]; repeat split; constructor);
      (exists (XNum x), [TNum x]; repeat split; constructor).
  - rewrite one_mon_eq in E.
    destruct it as [|[b n|y|s'|c|c|] it]; cbn [scaled_blade] in E; try discriminate;
      (rewrite scaled_value in E || rewrite scaled_value0 in E); inversion E; subst;
      try (exists (XIdEl s b n), [TId s; TElem b n]; repeat split; constructor);
      (exists (XId s), [TId s]; repeat split; constructor).
  - destruct (Ascii.eqb_spec c "(") as [->|_]; [|discriminate].
    apply bind_Val in E. destruct E as [[res it'] [E1 E2]].
    destruct (PE _ _ _ E1) as [e [l [-> [R V]]]].
    destruct it' as [|[b n|y|s|c'|c'|] it']; try discriminate.
    destruct (Ascii.eqb_spec c' ")") as [->|_]; [|discriminate]. inversion E2; subst.
    exists e, (TDelim "(" :: l ++ [TDelim ")"]). split; [cbn; rewrite <- app_assoc; reflexivity|].
    split; [constructor; assumption|reflexivity].
  - destruct (Ascii.eqb_spec c "-") as [->|_]; [|destruct (Ascii.eqb_spec c "~") as [->|_];
      [|destruct (Ascii.eqb_spec c "+") as [->|_]; [|discriminate]]].
    + destruct (IH (negb neg) rev v rest E) as [e [l [-> [R V]]]]. exists (XNeg e), (TOp "-" :: l).
      split; [reflexivity|]. split; [constructor; assumption|]. cbn [value]. rewrite <- app_neg. assumption.
    + destruct (IH neg (negb rev) v rest E) as [e [l [-> [R V]]]]. exists (XRev e), (TOp "~" :: l).
      split; [reflexivity|]. split; [constructor; assumption|]. cbn [value]. rewrite <- app_rev. assumption.
    + destruct (IH neg rev v rest E) as [e [l [-> [R V]]]]. exists (XPos e), (TOp "+" :: l).
      split; [reflexivity|]. split; [constructor; assumption|assumption].
  - discriminate.
Qed.
Definition sound (k : nat) (p : list (token C) -> presult) : Prop :=
  forall it v rest, p it = Val (v, rest) -> exists e l, it = l ++ rest /\ ren k e l /\ value e = v.
Lemma lp_sound k d n : (k < 5)%nat -> sound (S k) (lv (S k) d n) ->
  forall m it v v' rest e0 l0, lp k d n m v it = Val (v', rest) -> ren k e0 l0 -> value e0 = v ->
  exists e' l', it = l' ++ rest /\ ren k e' (l0 ++ l') /\ value e' = v'.
Proof.
  intros K SD. induction m as [|m IH]; intros it v v' rest e0 l0 E R V.
  { do 5 (destruct k as [|k]; [discriminate|]). lia. }
  assert (DONE : Val (v, it) = (Val (v', rest) : presult) ->
    exists e' l', it = l' ++ rest /\ ren k e' (l0 ++ l') /\ value e' = v').
  { intro Q. inversion Q; subst. exists e0, []. rewrite app_nil_r. repeat split. assumption. }
  assert (STEP : forall o r, k = bop_level o -> it = TOp (bop_char o) :: r ->
    exists e' l', it = l' ++ rest /\ ren k e' (l0 ++ l') /\ value e' = v').
  { intros o r -> ->. rewrite lp_bin in E. apply bind_Val in E. destruct E as [[w it'] [E1 E2]]. cbn [fst snd] in E2.
    destruct (SD _ _ _ E1) as [f [lf [-> [RF VF]]]].
    destruct (IH _ _ _ _ (XBin o e0 f) (l0 ++ TOp (bop_char o) :: lf) E2) as [e' [l' [-> [R' V']]]].
    - constructor; assumption.
    - cbn. rewrite V, VF. reflexivity.
    - exists e', (TOp (bop_char o) :: lf ++ l'). split; [cbn; rewrite app_assoc; reflexivity|].
      split; [|assumption]. rewrite <- app_assoc in R'. exact R'. }
  destruct it as [|[b ng|x|s|c|c|] r]; destruct k as [|[|[|[|[|k]]]]];
    try lia; cbn [lp sum_loop left_loop] in E; try discriminate; try (apply DONE; exact E).
  - destruct (Ascii.eqb_spec c "+") as [->|_]; [apply (STEP OAdd r eq_refl eq_refl)|].
    destruct (Ascii.eqb_spec c "-") as [->|_]; [apply (STEP OSub r eq_refl eq_refl)|discriminate].
  - destruct (Ascii.eqb_spec c "*") as [->|_]; [apply (STEP OMul r eq_refl eq_refl)|apply DONE; exact E].
  - destruct (Ascii.eqb_spec c "^") as [->|_]; [apply (STEP OExt r eq_refl eq_refl)|apply DONE; exact E].
  - destruct (Ascii.eqb_spec c "&") as [->|_]; [apply (STEP OReg r eq_refl eq_refl)|apply DONE; exact E].
  - destruct (Ascii.eqb_spec c "|") as [->|_]; [apply (STEP ODot r eq_refl eq_refl)|apply DONE; exact E].
Qed.
Lemma lv_sound_from d n : sound 5 (lv 5 d n) -> forall j, (j <= 5)%nat -> sound (5 - j) (lv (5 - j) d n).
Proof.
  intros S5 j. induction j as [|j IH]; intro J; [assumption|].
  replace (5 - j)%nat with (S (5 - S j)) in IH by lia. specialize (IH ltac:(lia)).
  intros it v rest E. rewrite lv_step in E by lia. apply bind_Val in E. destruct E as [[w it'] [E1 E2]].
  cbn [fst snd] in E2. destruct (IH _ _ _ E1) as [e [l [-> [R V]]]].
  destruct (lp_sound (5 - S j) d n ltac:(lia) IH n it' w v rest e l E2) as [e' [l' [-> [R' V']]]].
  - apply rn_up; [lia|assumption].
  - assumption.
  - exists e', (l ++ l'). rewrite app_assoc. repeat split; assumption.
Qed.
Lemma lv_sound d n : sound 5 (lv 5 d n).
Proof.
  induction d as [|d IH]; intros it v rest E; [discriminate|].
  change (lv 5 (S d) n it) with (parse_factor a (S d) n it) in E. rewrite parse_factor_S in E.
  apply (flags_sound (lv 0 d n) (lv_sound_from d n IH 5 ltac:(lia)) it false false v rest E).
Qed.
Lemma parse_sound d n : sound 0 (parse_expr a d n).
Proof. exact (lv_sound_from d n (lv_sound d n) 5 ltac:(lia)). Qed.

(** ** safety: on a token list ending in eof *)
Definition eofl (l : list (token C)) : Prop := exists pre, l = pre ++ [TEof].
Lemma eofl_tail t l : eofl (t :: l) -> t <> TEof -> eofl l.
Proof.
  intros [[|p pre] E] N; cbn in E; inversion E; subst; [contradiction|]. exists pre. reflexivity.
Qed.
Lemma eofl_nil : ~ eofl []. Proof. intros [[|p pre] E]; discriminate. Qed.
(** a good outcome from [it]: an exception, or a value with a shorter rest *)
Definition good (it : list (token C)) (r : presult) : Prop :=
  match r with
  | Val (_, rest) => eofl rest /\ (List.length rest < List.length it)%nat
  | Throw => True
  | _ => False
  end.
Lemma flags_good pe it neg rev : eofl it ->
  (forall it', eofl it' -> (List.length it' < List.length it)%nat -> good it' (pe it')) ->
  good it (factor_flags pe neg rev it).
Proof.
  revert neg rev. induction it as [|t it IH]; intros neg rev EO PE; [elim (eofl_nil EO)|].
  destruct t as [b n|x|s|c|c|]; unfold factor_flags; cbn [unary_ops bind];
    try (assert (EI : eofl it) by (apply eofl_tail with (1 := EO); discriminate)).
  - split; [assumption|cbn; lia].
  - destruct it as [|[b n|y|s|c|c|] it]; cbn [scaled_blade]; try (elim (eofl_nil EI)); (split; [|cbn; lia]);
      try assumption. apply eofl_tail with (1 := EI). discriminate.
  - destruct it as [|[b n|y|s'|c|c|] it]; cbn [scaled_blade]; try (elim (eofl_nil EI)); (split; [|cbn; lia]);
      try assumption. apply eofl_tail with (1 := EI). discriminate.
  - destruct (Ascii.eqb c "("); [|exact I].
    pose proof (PE it EI (Nat.lt_succ_diag_r _)) as G. unfold good in G.
    destruct (pe it) as [[res it']| | |]; cbn [bind]; try contradiction; [|exact I].
    destruct G as [E' L]. destruct it' as [|[b n|y|s|c'|c'|] it']; try exact I; [elim (eofl_nil E')|].
    destruct (Ascii.eqb c' ")"); [|exact I]. cbn [good]. split; [apply eofl_tail with (1 := E'); discriminate|].
    cbn in *. lia.
  - assert (REC : forall ng rv, good (TOp c :: it) (factor_flags pe ng rv it)).
    { intros ng rv. specialize (IH ng rv EI). assert (G : good it (factor_flags pe ng rv it)).
      { apply IH. intros it' E' L'. apply PE; [assumption|cbn; lia]. }
      unfold good in *. destruct (factor_flags pe ng rv it) as [[w r]| | |]; try assumption.
      destruct G as [G1 G2]. split; [assumption|cbn; lia]. }
    destruct (Ascii.eqb c "-"); [apply REC|]. destruct (Ascii.eqb c "~"); [apply REC|].
    destruct (negb (Ascii.eqb c "+")); [exact I|apply REC].
  - exact I.
Qed.
Lemma lp_good k d n : (k < 5)%nat ->
  forall m it v, eofl it -> (List.length it < m)%nat ->
  (forall it', eofl it' -> (List.length it' < List.length it)%nat -> good it' (lv (S k) d n it')) ->
  match lp k d n m v it with
  | Val (_, rest) => eofl rest /\ (List.length rest <= List.length it)%nat
  | Throw => True
  | _ => False
  end.
Proof.
  intro K. induction m as [|m IH]; intros it v EO L G; [lia|].
  assert (DONE : eofl it /\ (List.length it <= List.length it)%nat) by (split; [assumption|lia]).
  assert (STEP : forall o r, k = bop_level o -> it = TOp (bop_char o) :: r ->
    match lp k d n (S m) v it with
    | Val (_, rest) => eofl rest /\ (List.length rest <= List.length it)%nat
    | Throw => True | _ => False end).
  { intros o r -> ->. rewrite lp_bin.
    assert (ER : eofl r) by (apply eofl_tail with (1 := EO); discriminate).
    pose proof (G r ER (Nat.lt_succ_diag_r _)) as GR. unfold good in GR.
    destruct (lv (S (bop_level o)) d n r) as [[w r']| | |]; cbn [bind fst snd]; try contradiction; [|exact I].
    destruct GR as [E' L']. cbn [List.length] in L.
    assert (X := IH r' (bop_sem o v w) E' ltac:(lia)). 
    assert (Y : forall it', eofl it' -> (List.length it' < List.length r')%nat -> good it' (lv (S (bop_level o)) d n it')).
    { intros it' Q1 Q2. apply G; [assumption|cbn; lia]. }
    specialize (X Y). destruct (lp (bop_level o) d n m (bop_sem o v w) r') as [[u r'']| | |]; try assumption.
    destruct X as [X1 X2]. split; [assumption|cbn; lia]. }
  destruct it as [|[b ng|x|s|c|c|] r]; destruct k as [|[|[|[|[|k]]]]];
    try lia; cbn [lp sum_loop left_loop]; try exact I; try exact DONE; try (elim (eofl_nil EO)).
  - destruct (Ascii.eqb_spec c "+") as [->|_]; [apply (STEP OAdd r eq_refl eq_refl)|].
    destruct (Ascii.eqb_spec c "-") as [->|_]; [apply (STEP OSub r eq_refl eq_refl)|exact I].
  - destruct (Ascii.eqb_spec c "*") as [->|_]; [apply (STEP OMul r eq_refl eq_refl)|exact DONE].
  - destruct (Ascii.eqb_spec c "^") as [->|_]; [apply (STEP OExt r eq_refl eq_refl)|exact DONE].
  - destruct (Ascii.eqb_spec c "&") as [->|_]; [apply (STEP OReg r eq_refl eq_refl)|exact DONE].
  - destruct (Ascii.eqb_spec c "|") as [->|_]; [apply (STEP ODot r eq_refl eq_refl)|exact DONE].
Qed.
Lemma lv_good n d : forall j it, (j <= 5)%nat -> eofl it -> (List.length it <= d)%nat -> (List.length it <= n)%nat ->
  good it (lv (5 - j) d n it).
Proof.
  induction d as [|d IHd].
  { intros j it J EO L _. destruct it; [elim (eofl_nil EO)|cbn in L; lia]. }
  induction j as [|j IHj]; intros it J EO L1 L2.
  - change (lv (5 - 0) (S d) n it) with (parse_factor a (S d) n it). rewrite parse_factor_S.
    apply flags_good; [assumption|]. intros it' E' L'. apply (IHd 5%nat it'); [lia|assumption|lia|lia].
  - rewrite lv_step by lia. replace (S (5 - S j)) with (5 - j)%nat by lia.
    pose proof (IHj it ltac:(lia) EO L1 L2) as G. unfold good in G.
    destruct (lv (5 - j) (S d) n it) as [[w it']| | |]; cbn [bind fst snd]; try contradiction; [|exact I].
    destruct G as [E' L'].
    pose proof (lp_good (5 - S j) (S d) n ltac:(lia) n it' w E' ltac:(lia)) as X.
    replace (S (5 - S j)) with (5 - j)%nat in X by lia.
    assert (Y : forall it'', eofl it'' -> (List.length it'' < List.length it')%nat -> good it'' (lv (5 - j) (S d) n it'')).
    { intros it'' Q1 Q2. apply IHj; try lia. assumption. }
    specialize (X Y). unfold good. destruct (lp (5 - S j) (S d) n n w it') as [[u r]| | |]; try assumption.
    destruct X as [X1 X2]. split; [assumption|lia].
Qed.
Lemma parse_good d n it : eofl it -> (List.length it <= d)%nat -> (List.length it <= n)%nat ->
  good it (parse_expr a d n it).
Proof. apply (lv_good n d 5 it). lia. Qed.
End Parse.
Arguments ex C : clear implicits.
